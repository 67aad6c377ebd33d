(** Specification vocabulary for the similarity solutions. *)
From Coq Require Import Reals List.
From Coquelicot Require Import Coquelicot.
From Verif Require Import PyBase SimilarityModel.
Open Scope R_scope.

(** Near [x] the query [q] answers with finite numbers, and as a real function it has
    derivative [d] at [x]. *)
Definition rderiv (q : R -> res xr) (x d : R) : Prop :=
  exists g : R -> R, locally x (fun t => q t = Ok (Fin (g t))) /\ is_derive g x d.

(** The same for a second derivative: the first derivative exists near [x] and has
    derivative [d] at [x]. *)
Definition rderiv2 (q : R -> res xr) (x d : R) : Prop :=
  exists g : R -> R, locally x (fun t => rderiv q t (g t)) /\ is_derive g x d.

(** A Blasius object, or a Falkner-Skan object with wedge parameter below 2, having finite
    reference values. *)
Definition flow (o : sim) (beta u_ref nu_ref : R) : Prop :=
  s_alpha o = Fin 1 /\ s_gamma o = Fin 1 /\ s_beta o = Fin beta /\
  s_u_ref o = Fin u_ref /\ s_nu_ref o = Fin nu_ref /\
  beta_min <= beta < 2 /\ 0 < u_ref /\ 0 < nu_ref /\
  (s_class o = CBlasius -> beta = 0).

(** The object's stored profile and its two derivatives are [F0], [F1], [F2] near [eta]. *)
Definition profile_near (o : sim) (F0 F1 F2 : R -> R) (eta : R) : Prop :=
  exists f, s_f o = Some f /\
    locally eta (fun t => f (Fin t) = (Fin (F0 t), Fin (F1 t), Fin (F2 t))).

(** The object's stored profile is [F0], [F1], [F2] on the interval from the wall to the
    edge [E], and there each one is the derivative of the one before. *)
Definition profile_on (o : sim) (F0 F1 F2 : R -> R) (E : R) : Prop :=
  s_eta_inf o = Fin E /\ 0 < E /\
  (exists f, s_f o = Some f /\
     forall t, 0 <= t <= E -> f (Fin t) = (Fin (F0 t), Fin (F1 t), Fin (F2 t))) /\
  (forall t, 0 <= t <= E -> is_derive F0 t (F1 t)) /\
  (forall t, 0 <= t <= E -> is_derive F1 t (F2 t)).

(** [F0], [F1], [F2] satisfies f''' + f f'' + beta (1 - f'^2) = 0 at [t]. *)
Definition falkner_skan_at (beta : R) (F0 F1 F2 : R -> R) (t : R) : Prop :=
  is_derive F2 t (- (F0 t * F2 t + beta * (1 - F1 t * F1 t))).

(** [quad] integrates continuous functions exactly. *)
Definition exact_quad (quad : (xr -> res xr) -> xr -> res xr) : Prop :=
  forall (q : xr -> res xr) (g : R -> R) (b : R), 0 <= b ->
    (forall t, 0 <= t <= b -> q (Fin t) = Ok (Fin (g t))) ->
    (forall t, 0 <= t <= b -> continuous g t) ->
    quad q (Fin b) = Ok (Fin (RInt g 0 b)).

(** Histories of an object: the mutating calls of a Falkner-Skan solution. *)
Inductive scall :=
| SetURef (v : xr)
| SetNuRef (v : xr)
| SetSolution (eta_inf fw_pp : option xr)
| ResetBeta (beta : xr) (eta_inf fw_pp : option xr)
| ResetM (m : xr) (eta_inf fw_pp : option xr).

Section Calls.
Variable ivp : (triple -> triple) -> xr -> triple -> res ivp3.
Variable quad : (xr -> res xr) -> xr -> res xr.
Variable bisect : (xr -> res xr) -> xr -> res (bool * xr).

Definition do_scall (o : sim) (c : scall) : sim * res unit :=
  match c with
  | SetURef v => set_u_ref o v
  | SetNuRef v => set_nu_ref o v
  | SetSolution e w => set_solution_parameters ivp quad bisect o e w
  | ResetBeta b e w => reset_beta ivp quad bisect o b e w
  | ResetM m e w => reset_m ivp quad bisect o m e w
  end.

(** The state after a list of calls, exceptions caught by the caller. *)
Fixpoint do_scalls (o : sim) (cs : list scall) : sim :=
  match cs with nil => o | c :: r => do_scalls (fst (do_scall o c)) r end.

End Calls.

(** No argument of the call is nan or an infinity (other than [m = inf], which is allowed). *)
Definition finite_call (c : scall) : Prop :=
  match c with
  | ResetBeta b _ _ => exists r, b = Fin r
  | ResetM m _ _ => m = PInf \/ exists r, m = Fin r
  | SetURef v => exists r, v = Fin r
  | SetNuRef v => exists r, v = Fin r
  | SetSolution _ _ => True
  end.

(** The calls that only change the reference values. *)
Definition reference_call (c : scall) : Prop :=
  match c with SetURef _ | SetNuRef _ => True | _ => False end.

(** [o2] is what a successful solution of the profile leaves, possibly followed by changes
    of the reference values. *)
Definition solved ivp quad bisect (o2 : sim) : Prop :=
  exists o e w o1 cs, set_solution_parameters ivp quad bisect o e w = (o1, Ok tt) /\
    List.Forall reference_call cs /\ o2 = do_scalls ivp quad bisect o1 cs.

(** [bisect] returns a point of the bracket where the function vanishes. *)
Definition exact_bisect (bisect : (xr -> res xr) -> xr -> res (bool * xr)) : Prop :=
  forall q b r, bisect q b = Ok (true, r) ->
    exists t, r = Fin t /\ xleb (Fin 0) r = true /\ xleb r b = true /\ q r = Ok (Fin 0).
