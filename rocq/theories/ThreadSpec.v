(** Who uses what, for programs with several threads (ThreadModel). *)
From Coq Require Import Reals List.
From Verif Require Import PyBase InitialConditionModel CoreModel WorkflowModel ThreadModel.
Import ListNotations.

(** A division of the objects: the thread that uses a method object; whether the method
    object may refer to a condition that several threads use; the thread that uses a
    condition object, None for those that several use. *)
Record division := {
  owner : nat -> nat;
  shares : nat -> bool;
  cond_owner : nat -> option nat }.

(** Method object [i] may refer to condition object [r]. *)
Definition may_refer (D : division) (i r : nat) : Prop :=
  cond_owner D r = Some (owner D i) \/ (shares D i = true /\ cond_owner D r = None).

Definition is_manual (c : ic) : Prop := exists d m k, ic_body_of c = Manual d m k.

(** The references respect the division; the conditions that several threads use are
    ManualConditions. *)
Definition divided (D : division) (w : world) : Prop :=
  (forall i, may_refer D i (w_ref w i)) /\
  (forall r, cond_owner D r = None -> is_manual (w_conds w r)).

(** Thread [k] may make the call: the object is its own; it assigns to attributes of its
    own conditions only. *)
Definition keeps_to (D : division) (k : nat) (c : tcall) : Prop :=
  match c with
  | TSolve i _ _ _ | TDeltaM i _ | TShapeD i _ | TDeltaD i _ | TSetNu i _
  | TSetVelocity i _ _ _ => owner D i = k
  | TSetDeltaM i _ => owner D i = k /\ shares D i = false
  | TSetCondition i r => owner D i = k /\ may_refer D i r
  end.

(** How often [k] occurs in a schedule. *)
Definition turns (k : nat) (l : list nat) : nat := count_occ Nat.eq_dec l k.

(** The queries of method object [i]. *)
Definition query_of (i : nat) (c : tcall) : Prop :=
  match c with TDeltaM j _ | TShapeD j _ | TDeltaD j _ => j = i | _ => False end.

Definition res_number (r : res xr) : res answer :=
  match r with Ok v => Ok (ANumber v) | Err e => Err e end.

(** What a query finds if it runs alone on the object [m]. *)
Definition query_answer (m : meth) (c : tcall) : res answer :=
  res_number match c with
             | TDeltaM _ x => q_delta_m m x
             | TShapeD _ x => q_shape_d m x
             | TDeltaD _ x => q_delta_d m x
             | _ => Err OtherError
             end.

(** What a query may find while the object changes from [old] to [new]. *)
Definition query_sees (old new : meth) (c : tcall) (o : res answer) : Prop :=
  o = query_answer old c \/ o = query_answer new c \/
  o = Err ValueError \/ o = Err TypeError \/
  exists i x, c = TDeltaD i x /\
    o = res_number (bind (q_delta_m old x) (fun d => bind (q_shape_d new x) (fun h => Ok (d * h)%xr))).

(** A call that is interrupted after [n] steps leaves this. *)
Definition interrupted {A} (n : nat) (p : prog A) (w : world) : world := snd (psteps n p w).

(** Only method [i] and the condition it refers to have changed. *)
Definition elsewhere_same (i : nat) (w v : world) : Prop :=
  (forall j, j <> i -> w_meths v j = w_meths w j) /\
  (forall r, r <> w_ref w i -> w_conds v r = w_conds w r) /\
  w_ref v = w_ref w /\ w_next v = w_next w.
