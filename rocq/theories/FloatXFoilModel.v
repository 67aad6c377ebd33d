(** The arc lengths of a loaded XFoil dump in binary64 arithmetic (C125).
    Simplification: of the columns of a row only s and u_e_rel are kept; the other columns do not
    enter the arc lengths.  XFoilModel.v has the whole loader with exact numbers. *)
From Coq Require Import ZArith List.
From Flocq Require Import Core IEEE754.BinarySingleNaN.
From Verif Require Import PyBase FloatModel.
Import ListNotations.
Open Scope b64_scope.

(** The pair (s, u_e_rel) of a row. *)
Definition row64 : Type := (b64 * b64)%type.
Definition b_1 : b64 := @B754_finite 53 1024 false 4503599627370496 (-52) eq_refl.
Definition b_m1 : b64 := @B754_finite 53 1024 true 4503599627370496 (-52) eq_refl.

(** Python's [<] and [==] on floats. *)
Definition flt (x y : b64) : bool := Bltb x y.
Definition feq (x y : b64) : bool := Beqb x y.

(** ibl/reference/_xfoil_data.py:61-66 setter of [s]. *)
Definition set_s64 (s : b64) : res b64 := if flt s b_0 then Err ValueError else Ok s.

(** ibl/reference/_xfoil_data.py:215-262 [reset] on a row whose columns have been read: s goes
    through the setter. *)
Definition new_row64 (r : row64) : res row64 := bind (set_s64 (fst r)) (fun s => Ok (s, snd r)).

Fixpoint each64 {A B} (f : A -> res B) (l : list A) : res (list B) :=
  match l with [] => Ok [] | x :: t => bind (f x) (fun y => bind (each64 f t) (fun r => Ok (y :: r))) end.

(** ibl/reference/_xfoil_reader.py:184-191: the upper rows (nearest to the stagnation point first) and
    the rows from the first negative velocity on. *)
Fixpoint upper_loop64 (rows up : list row64) : res (list row64 * option (list row64)) :=
  match rows with
  | [] => Ok (up, None)
  | r :: t => bind (new_row64 r) (fun p => if flt (snd p) b_0 then Ok (up, Some rows) else upper_loop64 t (p :: up))
  end.

(** ibl/reference/_xfoil_reader.py:194-198: [airfoil_data[idx_lower:]], the last row when no velocity was
    negative, with the velocities negated. *)
Definition lower_rows64 (rows : list row64) (found : option (list row64)) : res (list row64) :=
  bind (each64 new_row64 (match found with Some l => l | None => skipn (List.length rows - 1) rows end))
    (fun l => Ok (map (fun r => (fst r, snd r * b_m1)) l)).

(** ibl/reference/_xfoil_reader.py:205-209 with line 824 of [_interpolate_aifoil_data]: the arc length at
    zero velocity. *)
Definition stag_s64 (up lo : row64) : res b64 :=
  let du := snd up + snd lo in
  if feq du b_0 then Err ZeroDivisionError
  else let frac := snd up / du in set_s64 (frac * fst lo + (b_1 - frac) * fst up).

(** ibl/reference/_xfoil_reader.py:217-220: the loops over the upper and the lower rows. *)
Definition upper_arcs64 (stag : b64) (l : list b64) : res (list b64) := each64 (fun s => set_s64 (stag - s)) l.
Definition lower_arcs64 (stag : b64) (l : list b64) : res (list b64) := each64 (fun s => set_s64 (s - stag)) l.

(** ibl/reference/_xfoil_reader.py:223-227 with the wake rows' setter (_xfoil_data.py:302-307). *)
Definition wake_arcs64 (wake : list b64) : res (list b64) :=
  bind (each64 set_s64 wake) (fun w => match w with [] => Ok [] | off :: _ => each64 (fun s => set_s64 (s - off)) w end).

(** ibl/reference/_xfoil_reader.py:183-227: the arc lengths of the upper surface, the lower surface and
    the wake.  With an upper row at zero velocity the same row object is put in front of the lower rows
    (lines 201-203), so both loops change it. *)
Definition load_arcs64 (rows : list row64) (wake : list b64) : res (list b64 * list b64 * list b64) :=
  bind (upper_loop64 rows []) (fun '(up, found) =>
  bind (lower_rows64 rows found) (fun lo =>
  bind (match up with
        | [] => Err IndexError
        | u :: up' =>
            if feq (snd u) b_0 then
              bind (upper_arcs64 (fst u) (map fst up)) (fun U =>
              bind (lower_arcs64 (fst u) ((fst u - fst u) :: map fst lo)) (fun L =>
              Ok (hd b_0 L :: tl U, L)))
            else match lo with
            | [] => Err IndexError
            | l :: _ =>
                bind (stag_s64 u l) (fun s =>
                bind (upper_arcs64 s (s :: map fst up)) (fun U =>
                bind (lower_arcs64 s (s :: map fst lo)) (fun L => Ok (U, L))))
            end
        end) (fun '(U, L) =>
  bind (wake_arcs64 wake) (fun W => Ok (U, L, W))))).
