(** Vocabulary of C150-C152. *)
From Coq Require Import Reals List.
From Verif Require Import PyBase SimilarityModel SimilarityArrayModel.
Import ListNotations.
Open Scope R_scope.

(** A similarity object as the constructors make it: finite reference values and wedge parameter. *)
Definition usual (o : sim) : Prop :=
  s_alpha o = Fin 1 /\ (exists b, s_beta o = Fin b) /\ (exists n, s_nu_ref o = Fin n /\ 0 < n) /\
  (exists u, s_u_ref o = Fin u /\ 0 < u).

(** One answer is the number in the other, or both are the same exception. *)
Definition same_answer (a : res xr) (r : res nval) : Prop :=
  match a, r with
  | Ok v, Ok (VPy w) | Ok v, Ok (VNp w) => v = w
  | Err e, Err f => e = f
  | _, _ => False
  end.

(** The answer is the array of the single answers (or the exception each of them is). *)
Definition elementwise {A} (q : A -> res xr) (l : list A) (r : res nval) : Prop :=
  (exists vs, r = Ok (VArr vs) /\ Forall2 (fun x v => q x = Ok v) l vs) \/
  (exists e, r = Err e /\ forall x, q x = Err e).

(** The points numpy's broadcasting makes of two arguments of which one at least is an array;
    none if the lengths do not fit. *)
Definition points (x y : arg) : option (list (R * R)) :=
  match x, y with
  | NpArr l, NpArr r =>
      if Nat.eqb (List.length l) (List.length r) then Some (combine l r)
      else match l, r with
           | [a], _ => Some (map (fun b => (a, b)) r)
           | _, [b] => Some (map (fun a => (a, b)) l)
           | _, _ => None
           end
  | (PyNum a | NpNum a), NpArr r => Some (map (fun b => (a, b)) r)
  | NpArr l, (PyNum b | NpNum b) => Some (map (fun a => (a, b)) l)
  | _, _ => None
  end.
Definition is_array (a : arg) : Prop := exists l, a = NpArr l.

(** Queries with one position, in the two models. *)
Definition one_position (Q : sim -> arg -> res nval) (q : sim -> R -> res xr) : Prop :=
  In (Q, q) [(a_u_e, qs_u_e); (a_v_e, qs_v_e); (a_delta_d, qs_delta_d); (a_delta_m, qs_delta_m);
             (a_delta_k, qs_delta_k); (a_delta_s, qs_delta_s); (a_shape_d, qs_shape_d);
             (a_shape_k, qs_shape_k)] \/
  exists rho, In (Q, q) [(fun o x => a_tau_w o x rho, fun o x => qs_tau_w o x rho);
                         (fun o x => a_dissipation o x rho, fun o x => qs_dissipation o x rho)].
