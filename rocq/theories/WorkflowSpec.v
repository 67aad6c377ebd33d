(** Vocabulary of the workflow properties C92-C99. *)
From Coq Require Import Reals List String Bool ZArith.
From Verif Require Import PyBase FiniteDiffModel PPolyModel InitialConditionModel
  ThwaitesFitsModel HeadModel CoreModel CoreSpec WorkflowModel.
Import ListNotations.
Open Scope R_scope.

(** [solve] without extra events. *)
Definition plain_solve (o : op) : Prop := exists x0 x1, o = OpSolve x0 x1 [].

(** The part of the configuration a call is about. *)
Inductive part := PartViscosity | PartVelocity | PartCondition | PartSeparation.
Definition concerns (o : op) (p : part) : bool :=
  match o, p with
  | OpNu _, PartViscosity => true
  | OpVelocity _ _ _, PartVelocity => true
  | (OpCondition _ | OpInitialDeltaM _ | OpInitialShapeD _), PartCondition => true
  | (OpFits _ | OpCritical _), PartSeparation => true
  | _, _ => false
  end.

(** The two histories make the same calls about each part, in the same order. *)
Definition same_calls (h1 h2 : list op) : Prop :=
  forall p, filter (fun o => concerns o p) h1 = filter (fun o => concerns o p) h2.

(** The calls about one part, with their outcomes. *)
Definition about (p : part) (t : list (op * res (option int_result))) :=
  filter (fun q => concerns (fst q) p) t.

(** The second answer is the first multiplied by [k] (or the same exception). *)
Definition scaled (k : R) (a b : res xr) : Prop :=
  match a, b with
  | Ok v, Ok w => w = (Fin k * v)%xr
  | Err e, Err f => e = f
  | _, _ => False
  end.

(** What is about method [i] in a program of several objects. *)
Definition calls_of (i : nat) (h : list wop) : list op :=
  flat_map (fun o => match o with WCall j c => if Nat.eqb j i then [c] else [] | _ => [] end) h.
Definition outcomes_of (i : nat) (t : list (wop * res (option int_result)))
  : list (op * res (option int_result)) :=
  flat_map (fun p => match p with
                     | (WCall j c, r) => if Nat.eqb j i then [(c, r)] else []
                     | _ => [] end) t.

(** Calls that neither exchange nor edit a condition. *)
Definition leaves_conditions (o : wop) : Prop :=
  match o with WCall _ c => edits_condition c = false | WShare _ _ => False end.

(** Each of the methods 0, ..., n-1 refers to a condition object of its own. *)
Definition own_conditions (n : nat) (w : world) : Prop :=
  (forall j, (j < n)%nat -> (w_ref w j < w_next w)%nat) /\
  (forall j k, (j < n)%nat -> (k < n)%nat -> w_ref w j = w_ref w k -> j = k).
(** A program that calls these methods and never passes on an existing condition object
    (but may well pass new ones). *)
Definition no_sharing (n : nat) (o : wop) : Prop :=
  match o with WCall j _ => (j < n)%nat | WShare _ _ => False end.
(** A call that gives neither method [i] nor method [j] another condition object. *)
Definition keeps_reference (i j : nat) (o : wop) : Prop :=
  match o with
  | WCall k (OpCondition _) | WShare k _ => k <> i /\ k <> j
  | _ => True
  end.

(** A one-dimensional numpy array. *)
Definition vec (l : list R) : ndarray := {| nd_shape := [List.length l]; nd_data := l |}.

(** Points that can be interpolated: two or more, abscissas strictly increasing. *)
Definition usable_points (xs ys : list R) : Prop :=
  List.length xs = List.length ys /\ (2 <= List.length xs)%nat /\
  forall i a b, nth_error xs i = Some a -> nth_error xs (S i) = Some b -> a < b.

(** [f] runs through the points, and between two neighbours it is monotone (so it stays between
    the two values). *)
Definition follows (f : R -> R) (xs ys : list R) : Prop :=
  (forall i x y, nth_error xs i = Some x -> nth_error ys i = Some y -> f x = y) /\
  (forall i x0 x1 y0 y1 s t,
     nth_error xs i = Some x0 -> nth_error xs (S i) = Some x1 ->
     nth_error ys i = Some y0 -> nth_error ys (S i) = Some y1 ->
     x0 <= s -> s <= t -> t <= x1 ->
     (y0 <= y1 -> y0 <= f s /\ f s <= f t /\ f t <= y1) /\
     (y1 <= y0 -> y1 <= f t /\ f t <= f s /\ f s <= y0)).

(** A recorded root of an event function is a zero of it along the returned solution. *)
Definition roots_are_zeros (solve_ivp :
  (R -> list xr -> res (list xr)) -> R -> R -> list xr ->
  list (bool * (R -> list xr -> res xr)) -> res ivp_result) : Prop :=
  forall f a b y e r, solve_ivp f a b y e = Ok r ->
  forall i t g roots x, nth_error e i = Some (t, g) -> nth_error (r_t_events r) i = Some roots ->
    In x roots -> g x (r_sol r x) = Ok (Fin 0).
