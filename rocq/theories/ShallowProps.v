(** Properties C160 - C161: shallow copies (copy.copy).
    Notions: CopySpec ([calls_on], [given_derivatives], ...) and ShallowSpec. *)
From Coq Require Import Reals List String Bool ZArith Lra Lia.
From Verif Require Import PyBase PyBaseFacts FiniteDiffModel PPolyModel InitialConditionModel ThwaitesFitsModel HeadModel
  CoreModel CoreSpec CoreProofs CoreRefute CopyModel CopySpec CopyProofs ShallowModel ShallowSpec ShallowProofs ShallowRefute.
Import ListNotations.
Open Scope R_scope.

(* ---------------------------------------------------------------- C160 *)
(** A shallow copy answers every query as the original does, and the first call made on it, a solve
    included, has the outcome the same call on the original would have.  Making a copy changes no
    object.  [p0] is the program so far, copies included. *)
Theorem shallow_copy_like_original : forall pchip cubic_spline solve_ivp n ms p0 i,
  let w := srun pchip cubic_spline solve_ivp (sstart n ms) p0 in
  let j := st_next w in
  (i < st_next w)%nat ->
  seen (shallow_copy w i) j = seen w i /\
  (forall k, (k < st_next w)%nat -> seen (shallow_copy w i) k = seen w k) /\
  (forall o, snd (scall pchip cubic_spline solve_ivp (shallow_copy w i) j o) = snd (scall pchip cubic_spline solve_ivp w i o)).
Proof. exact copy_like_original_lemma. Qed.
Print Assumptions shallow_copy_like_original.

Example shallow_copy_case : forall pchip cubic_spline solve_ivp,
  let w := srun pchip cubic_spline solve_ivp (sstart 2 (fun _ => w_thwaites)) [CCopy 1; CCall 2 (OpNu (Fin 2)); CCall 0 (OpInitialDeltaM (Fin 1))] in
  (2 < st_next w)%nat /\ seen w 2 <> seen w 0.
Proof.
  intros. split; [cbn; lia|]. assert (E1 : m_nu (seen w 2) = Fin 2).
  { cbn. unfold set_nu. cbn [xleb]. rewrite Rleb_false by lra. reflexivity. }
  assert (E0 : m_nu (seen w 0) = Fin 1) by (cbn; reflexivity).
  intros E. rewrite E, E0 in E1. injection E1. lra.
Qed.

(* ---------------------------------------------------------------- C161 *)
(** A shallow copy and its original are independent: whatever is done to one leaves the other as it is.

    False.  An initial value assigned on the copy is the original's from then on, ... *)
Theorem shallow_copy_independent_refuted : forall pchip cubic_spline solve_ivp, exists m p,
  created pchip cubic_spline m /\ calls_on 0 p = [] /\
  get_initial_delta_m (seen (srun pchip cubic_spline solve_ivp (sstart 1 (fun _ => m)) p) 0) <> get_initial_delta_m m.
Proof. exact initial_value_witness. Qed.
Print Assumptions shallow_copy_independent_refuted.

(** ... and a stopping condition passed to a solve of the copy stops the original's solves. *)
Theorem shallow_copy_stops_refuted : forall pchip cubic_spline, exists solve_ivp m p,
  ivp_contract solve_ivp /\ created pchip cubic_spline m /\ calls_on 0 p = [OpSolve 0 1 []] /\
  exists r r', soutcomes pchip cubic_spline solve_ivp 0 (sstart 1 (fun _ => m)) p = [(OpSolve 0 1 [], Ok (Some r))] /\
    trace pchip cubic_spline solve_ivp m [OpSolve 0 1 []] = [(OpSolve 0 1 [], Ok (Some r'))] /\
    ir_status r = TRANSITIONED /\ ir_status r' = REACHED_END.
Proof. exact stops_witness. Qed.
Print Assumptions shallow_copy_stops_refuted.

(** What stays shared: until either object gets another condition, both have the same initial values;
    until either gets another fit or critical shape factor, both have the same stopping conditions. *)
Theorem shallow_copy_shares : forall pchip cubic_spline solve_ivp n ms p0 i p,
  let w := srun pchip cubic_spline solve_ivp (sstart n ms) p0 in let j := st_next w in (i < st_next w)%nat ->
  let w' := srun pchip cubic_spline solve_ivp (shallow_copy w i) p in
  (Forall (fun o => renews_condition o = false) (calls_on i p) -> Forall (fun o => renews_condition o = false) (calls_on j p) ->
   m_ic (seen w' i) = m_ic (seen w' j)) /\
  (Forall (fun o => renews_stops o = false) (calls_on i p) -> Forall (fun o => renews_stops o = false) (calls_on j p) ->
   m_events (seen w' i) = m_events (seen w' j)).
Proof. exact copy_shares. Qed.
Print Assumptions shallow_copy_shares.

(** An initial momentum thickness assigned on the copy is the original's too. *)
Theorem shallow_copy_initial_value : forall pchip cubic_spline solve_ivp n ms p0 i v,
  let w := srun pchip cubic_spline solve_ivp (sstart n ms) p0 in let j := st_next w in (i < st_next w)%nat ->
  ic_body_of (m_ic (seen w i)) <> FSStag -> xleb v (Fin 0) = false ->
  let w' := srun pchip cubic_spline solve_ivp (shallow_copy w i) [CCall j (OpInitialDeltaM v)] in
  get_initial_delta_m (seen w' i) = Ok v /\ get_initial_delta_m (seen w' j) = Ok v.
Proof. exact initial_value_shared. Qed.
Print Assumptions shallow_copy_initial_value.

(** A copy that gets another velocity goes on judging separation with the velocity of the original. *)
Theorem shallow_copy_separation : forall pchip cubic_spline solve_ivp n ms i u du d2u, (i < n)%nat ->
  let w' := srun pchip cubic_spline solve_ivp (sstart n ms) [CCopy i; CCall n (OpVelocity u du d2u)] in
  event_functions w' n = map (fun e => (ev_terminal e, event_value (ms i) e)) (m_events (ms i)).
Proof. exact stops_read_original. Qed.
Print Assumptions shallow_copy_separation.

Example shallow_copy_shares_case : forall pchip cubic_spline solve_ivp,
  let w := srun pchip cubic_spline solve_ivp (sstart 1 (fun _ => w_thwaites)) [] in
  let p := [CCall 1 (OpInitialDeltaM (Fin 1)); CCall 1 (OpSolve 0 1 [user_event TRANSITIONED true ""]); CCall 0 (OpNu (Fin 2))] in
  (0 < st_next w)%nat /\ ic_body_of (m_ic (seen w 0)) <> FSStag /\ xleb (Fin 1) (Fin 0) = false /\
  Forall (fun o => renews_condition o = false) (calls_on 0 p) /\ Forall (fun o => renews_condition o = false) (calls_on 1 p) /\
  Forall (fun o => renews_stops o = false) (calls_on 0 p) /\ Forall (fun o => renews_stops o = false) (calls_on 1 p).
Proof.
  intros. split; [cbn; lia|]. split; [cbn; discriminate|]. split; [cbn [xleb]; apply Rleb_false; lra|]. repeat split; repeat constructor.
Qed.

(** True parts.  First: what is done to other objects changes no answer of an object about velocity
    and solution; for an object that is not a copy always, ... *)
Theorem original_flow_partial : forall pchip cubic_spline solve_ivp n ms p0 k p, (k < n)%nat ->
  let w := srun pchip cubic_spline solve_ivp (sstart n ms) p0 in
  calls_on k p = [] -> same_flow (seen (srun pchip cubic_spline solve_ivp w p) k) (seen w k).
Proof. exact original_flow. Qed.
Print Assumptions original_flow_partial.

(** ... for a copy when velocity and fit came with their derivatives. *)
Theorem copy_flow_partial : forall pchip cubic_spline solve_ivp w k p, (k < st_next w)%nat ->
  given_derivatives (attributes w k) -> given_fit_derivative (attributes w k) ->
  calls_on k p = [] -> same_flow (seen (srun pchip cubic_spline solve_ivp w p) k) (seen w k).
Proof. exact given_flow. Qed.
Print Assumptions copy_flow_partial.

(** Second: when every shallow copy is at once given a condition, a velocity and a fit or critical shape
    factor of its own, all objects are independent: in the rest of the program the calls on an object
    have the outcomes, and lead to the answers, of a program that makes only these calls. *)
Theorem renewed_copies_partial : forall pchip cubic_spline solve_ivp n ms p0 p k,
  (forall k, (k < n)%nat -> m_kind (ms k) = Head -> m_fit (ms k) = None) ->
  renewing pchip cubic_spline solve_ivp n (fun k => m_kind (ms k)) p0 ->
  let w := srun pchip cubic_spline solve_ivp (sstart n ms) p0 in
  renewing pchip cubic_spline solve_ivp (st_next w) (fun k => m_kind (attributes w k)) p -> (k < st_next w)%nat ->
  soutcomes pchip cubic_spline solve_ivp k w p = trace pchip cubic_spline solve_ivp (attributes w k) (calls_on k p) /\
  same_answers (seen (srun pchip cubic_spline solve_ivp w p) k) (run pchip cubic_spline solve_ivp (attributes w k) (calls_on k p)).
Proof. exact renewed_independent. Qed.
Print Assumptions renewed_copies_partial.

(** ThwaitesMethodLinear with a velocity and both derivatives given, and White's fit. *)
Definition fit_meth_given : meth :=
  {| m_kind := ThwaitesLinear; m_nu := Fin 1; m_u := Some (VF (fun x => x) KFloat);
     m_du := Some (VF (fun _ => 1) KFloat); m_d2u := Some (VF (fun _ => 0) KFloat);
     m_ic := new_manual (Fin 0) PInf (Fin 0); m_fit := Some fit_white;
     m_events := [thwaites_event fit_white]; m_sol := None |}.
Example flow_case : forall pchip cubic_spline solve_ivp,
  let w := srun pchip cubic_spline solve_ivp (sstart 1 (fun _ => fit_meth_given)) [CCopy 0] in
  (1 < st_next w)%nat /\ given_derivatives (attributes w 1) /\ given_fit_derivative (attributes w 1) /\
  calls_on 1 [CCall 0 (OpNu (Fin 3)); CCopy 0; CCall 2 (OpVelocity (PCall line_call) PNone PNone)] = [].
Proof.
  intros. split; [cbn; lia|]. split; [repeat split; discriminate|]. split; [|reflexivity]. intros f E. injection E as <-. discriminate.
Qed.
Example renewed_copies_case : forall pchip cubic_spline solve_ivp,
  renewing pchip cubic_spline solve_ivp 2 (fun k => m_kind (if Nat.eqb k 0 then w_thwaites else w_head))
    [CCall 0 (OpNu (Fin 2));
     CCopy 0; CCall 2 (OpCondition (new_manual (Fin 0) (Fin 1) (Fin 0))); CCall 2 (OpVelocity (PCall line_call) PNone PNone); CCall 2 (OpFits (FName "White"));
     CCopy 1; CCall 3 (OpCondition (new_manual (Fin 2) (Fin 1) (Fin 0))); CCall 3 (OpVelocity (PCall line_call) PNone PNone); CCall 3 (OpCritical (Fin 2));
     CCall 3 (OpSolve 0 1 [user_event TRANSITIONED true ""]); CCall 0 (OpSolve 0 1 [])] /\
  (forall k, (k < 2)%nat -> m_kind (if Nat.eqb k 0 then w_thwaites else w_head) = Head -> m_fit (if Nat.eqb k 0 then w_thwaites else w_head) = None).
Proof.
  intros. split.
  - apply renewing_call. apply renewing_copy; [lia|reflexivity|split; [discriminate|eexists; reflexivity]|].
    apply renewing_copy; [lia|reflexivity|reflexivity|]. repeat constructor.
  - intros [|k] Hk; [discriminate|reflexivity].
Qed.
