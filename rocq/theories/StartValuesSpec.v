(** Vocabulary for C169: what the integration starts from. *)
From Coq Require Import Reals List.
From Verif Require Import PyBase InitialConditionModel CoreModel CoreSpec.
Import ListNotations.
Open Scope R_scope.

Definition is_finite (v : xr) : Prop := exists r, v = Fin r.
Definition positive_number (v : xr) : Prop := exists r, v = Fin r /\ 0 < r.

(** A call whose values are finite; the thicknesses of a condition object are positive as well (that
    of the displacement matters to Head's method only). *)
Definition careful (k : mkind) (o : op) : Prop :=
  match o with
  | OpNu v | OpInitialDeltaM v | OpInitialShapeD v => is_finite v
  | OpCondition c => match ic_body_of c with
                     | FSStag => True
                     | Manual d m _ => positive_number m /\ (k = Head -> positive_number d)
                     end
  | _ => True
  end.

(** The history gives the initial values: by a condition object, or by assigning the momentum
    thickness and, for Head's method, thereafter the shape factor. *)
Inductive start_given : mkind -> list op -> Prop :=
| given_by_condition k h1 c h2 : start_given k (h1 ++ OpCondition c :: h2)
| given_by_thickness k h1 v h2 : k <> Head -> positive_number v ->
    start_given k (h1 ++ OpInitialDeltaM v :: h2)
| given_by_thickness_and_shape h1 v h2 w h3 : positive_number v -> positive_number w ->
    start_given Head (h1 ++ OpInitialDeltaM v :: h2 ++ OpInitialShapeD w :: h3).
