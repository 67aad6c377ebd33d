(** Several method objects that refer to initial condition objects.

    ibl/ibl_method.py:372-381 [set_initial_condition] stores the reference it is given, so
    one condition object can serve several methods; [solve] (ibl/ibl_method.py:545-546) writes
    nu and du_e into it, and the setters of [initial_delta_m] and [initial_shape_d]
    (ibl/thwaites_method.py:75-79, ibl/head_method.py:47-65) write its attributes.
    CoreModel describes one method with one condition; here conditions live in a store. *)
From Coq Require Import Reals List String Bool ZArith.
From Verif Require Import PyBase FiniteDiffModel PPolyModel InitialConditionModel
  ThwaitesFitsModel HeadModel CoreModel CoreSpec.
Import ListNotations.
Open Scope R_scope.

(** Condition objects, method objects, the condition each method refers to, and the number
    of condition objects made so far. The field [m_ic] of a stored method is not used. *)
Record world := {
  w_conds : nat -> ic;
  w_meths : nat -> meth;
  w_ref : nat -> nat;
  w_next : nat }.

Definition upd {A} (f : nat -> A) (i : nat) (v : A) : nat -> A :=
  fun j => if Nat.eqb j i then v else f j.

(** A method as it acts at the moment: with the condition it refers to. *)
Definition view (w : world) (i : nat) : meth := set_ic (w_meths w i) (w_conds w (w_ref w i)).

(** Write back a method and its condition after a call. *)
Definition store (w : world) (i : nat) (m : meth) : world :=
  {| w_conds := upd (w_conds w) (w_ref w i) (m_ic m); w_meths := upd (w_meths w) i m;
     w_ref := w_ref w; w_next := w_next w |}.

Inductive wop :=
| WCall (i : nat) (o : op)          (* a call on method i *)
| WShare (i r : nat).               (* method_i.set_initial_condition(condition_r) *)

Section Worlds.
Variable pchip : ndarray -> ndarray -> res ppoly.
Variable cubic_spline : list R -> list R -> (xr -> xr) * (xr -> xr).
Variable solve_ivp :
  (R -> list xr -> res (list xr)) -> R -> R -> list xr ->
  list (bool * (R -> list xr -> res xr)) -> res ivp_result.

(** One call: [OpCondition c] passes a newly made condition object (372-381). *)
Definition wstep (w : world) (o : wop) : world * res (option int_result) :=
  match o with
  | WShare i r =>
      ({| w_conds := w_conds w; w_meths := w_meths w; w_ref := upd (w_ref w) i r;
          w_next := w_next w |}, Ok None)
  | WCall i (OpCondition c) =>
      ({| w_conds := upd (w_conds w) (w_next w) c; w_meths := w_meths w;
          w_ref := upd (w_ref w) i (w_next w); w_next := S (w_next w) |}, Ok None)
  | WCall i o =>
      let p := step pchip cubic_spline solve_ivp (view w i) o in
      (store w i (fst p), snd p)
  end.

(** A program: the final world and the outcome of every call. *)
Definition wrun (w : world) (h : list wop) : world := fold_left (fun s o => fst (wstep s o)) h w.
Fixpoint wtrace (w : world) (h : list wop) : list (wop * res (option int_result)) :=
  match h with
  | [] => []
  | o :: h' => (o, snd (wstep w o)) :: wtrace (fst (wstep w o)) h'
  end.

End Worlds.
