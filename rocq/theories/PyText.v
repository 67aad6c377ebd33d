(** Python's [str.split] and [float] on ASCII text, used to give the readers' text oracles a
    concrete instance.  The value of a decimal literal is exact (no rounding, no overflow to
    inf), and the "_" digit separator is not accepted. *)
From Coq Require Import Reals ZArith List Bool String Ascii.
From Verif Require Import PyBase.
Import ListNotations.
Open Scope R_scope.

Definition is_space (c : ascii) : bool :=
  let n := nat_of_ascii c in (Nat.leb 9 n && Nat.leb n 13) || (Nat.leb 28 n && Nat.leb n 32).

(** str.split() *)
Fixpoint split_ws (l : list ascii) (word : list ascii) : list (list ascii) :=
  match l with
  | [] => match word with [] => [] | _ => [rev word] end
  | c :: t => if is_space c
              then match word with [] => split_ws t [] | _ => rev word :: split_ws t [] end
              else split_ws t (c :: word)
  end.

Definition digit (c : ascii) : option Z :=
  let n := nat_of_ascii c in
  if Nat.leb 48 n && Nat.leb n 57 then Some (Z.of_nat (n - 48)) else None.

(** The digits at the front: value (continuing from [acc]), how many, and the rest. *)
Fixpoint digits (l : list ascii) (acc : Z) (n : Z) : Z * Z * list ascii :=
  match l with
  | c :: t => match digit c with
              | Some d => digits t (10 * acc + d)%Z (n + 1)%Z
              | None => (acc, n, l)
              end
  | [] => (acc, n, [])
  end.

(** m * 10^e *)
Definition decimal (m e : Z) : R :=
  if (0 <=? e)%Z then IZR (m * 10 ^ e) else IZR m / IZR (10 ^ (- e)).

Definition sign_of (l : list ascii) : Z * list ascii :=
  match l with
  | c :: t => if Ascii.eqb c "-" then ((-1)%Z, t) else if Ascii.eqb c "+" then (1%Z, t) else (1%Z, l)
  | [] => (1%Z, [])
  end.

Definition lower_char (c : ascii) : ascii :=
  let n := nat_of_ascii c in
  if Nat.leb 65 n && Nat.leb n 90 then ascii_of_nat (n + 32) else c.

(** float(word) for a word without blanks; [None] for ValueError. *)
Definition py_float (word : list ascii) : option xr :=
  let (sg, l) := sign_of word in
  let low := string_of_list_ascii (map lower_char l) in
  if String.eqb low "nan" then Some NaN
  else if String.eqb low "inf" || String.eqb low "infinity"
  then Some (if (sg =? 1)%Z then PInf else NInf)
  else
    let '(m1, n1, r1) := digits l 0 0 in
    let '(m2, n2, r2) := match r1 with
                         | c :: t => if Ascii.eqb c "." then digits t m1 0 else (m1, 0%Z, r1)
                         | [] => (m1, 0%Z, r1)
                         end in
    if (n1 + n2 =? 0)%Z then None
    else match r2 with
    | [] => Some (Fin (decimal (sg * m2) (- n2)))
    | c :: t =>
        if Ascii.eqb (lower_char c) "e" then
          let (se, t') := sign_of t in
          let '(e, ne, r3) := digits t' 0 0 in
          match r3 with
          | [] => if (ne =? 0)%Z then None else Some (Fin (decimal (sg * m2) (se * e - n2)))
          | _ => None
          end
        else None
    end.

Fixpoint all_some {A} (l : list (option A)) : option (list A) :=
  match l with
  | [] => Some []
  | Some a :: t => match all_some t with Some r => Some (a :: r) | None => None end
  | None :: _ => None
  end.

(** [float(x) for x in data.split()] *)
Definition py_floats (data : string) : option (list xr) :=
  all_some (map py_float (split_ws (list_ascii_of_string data) [])).

Example py_floats_ok : py_floats " 1.25e1  -.25 nan +Inf 7 2E3
" = Some [Fin (IZR 125 / IZR 10); Fin (IZR (-25) / IZR 100); NaN; PInf; Fin 7; Fin 2000].
Proof. reflexivity. Qed.
Example py_floats_bad : py_floats "1.0 x" = None /\ py_floats "." = None /\ py_floats "1e" = None.
Proof. repeat split; reflexivity. Qed.
