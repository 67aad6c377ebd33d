(** Notions used in the statement about the case data of an XFoil reader (C162). *)
From Coq Require Import Reals List String Bool.
From Verif Require Import PyBase PyText XFoilModel XFoilSpec.
Import ListNotations.
Open Scope R_scope.

(** The values the documentation calls valid, and not-a-number (which compares false with everything). *)
Definition positive_value (v : xr) : bool :=
  match v with Fin x => if Rlt_dec 0 x then true else false | NInf => false | PInf | NaN => true end.
Definition nonnegative_value (v : xr) : bool :=
  match v with Fin x => if Rle_dec 0 x then true else false | NInf => false | PInf | NaN => true end.

(** The value [v] has after the actions [l], when [given a] is the value, if any, that action [a] gives
    and loading a file sets it to [blank]. *)
Fixpoint latest {A} (given : raction -> option A) (blank : A) (l : list raction) (v : A) : A :=
  match l with
  | [] => v
  | RLoad _ :: t => latest given blank t blank
  | a :: t => latest given blank t (match given a with Some w => w | None => v end)
  end.

Definition when (b : bool) (v : xr) : option xr := if b then Some v else None.
Definition gives_name a := match a with RSetName v => Some v | _ => None end.
Definition gives_alpha a := match a with RSetAlpha v => Some v | _ => None end.
Definition gives_x_trans_upper a := match a with RSetXtUpper v => Some v | _ => None end.
Definition gives_x_trans_lower a := match a with RSetXtLower v => Some v | _ => None end.
Definition gives_u_ref a := match a with RSetURef v => when (positive_value v) v | _ => None end.
Definition gives_c a := match a with RSetC v => when (positive_value v) v | _ => None end.
Definition gives_n_trans a := match a with RSetNTrans v => when (positive_value v) v | _ => None end.
Definition gives_reynolds a := match a with RSetRe v => when (nonnegative_value v) v | _ => None end.

(** Assignments to the case data, and those with a valid value. *)
Definition assigns_case (a : raction) : bool :=
  match a with
  | RSetURef _ | RSetC _ | RSetRe _ | RSetNTrans _ | RSetName _ | RSetAlpha _ | RSetXtUpper _ | RSetXtLower _ => true
  | _ => false
  end.
Definition valid_case (a : raction) : bool :=
  match a with
  | RSetURef v | RSetC v | RSetNTrans v => positive_value v
  | RSetRe v => nonnegative_value v
  | _ => true
  end.
