(** Specification vocabulary for the XFoil reader. *)
From Coq Require Import Reals List Bool String Ascii Sorted.
From Verif Require Import PyBase XFoilModel.
Import ListNotations.
Open Scope R_scope.

(** A dump file: an optional comment line, airfoil lines of at least 80 characters, and
    optionally wake lines, the first of which is shorter. *)
Definition dump_file (lines airfoil wake : list string) : Prop :=
  exists header, lines = header ++ airfoil ++ wake /\
    (header = [] \/ exists h, header = [h] /\ String.get 0 h = Some "#"%char) /\
    (header = [] -> match airfoil with
                    | [] => False
                    | l :: _ => exists c, String.get 0 l = Some c /\ c <> "#"%char end) /\
    airfoil <> [] /\
    Forall (fun l => 80 <= String.length l)%nat (header ++ airfoil) /\
    match wake with [] => True | l :: _ => (String.length l < 80)%nat end.

(** The line holds twelve numbers, which are those of the row, in XFoil's order. *)
Definition line_holds (floats : string -> option (list xr)) (line : string) (r : arow) : Prop :=
  floats line = Some [a_s r; a_x r; a_y r; a_u_e_rel r; a_delta_d r; a_delta_m r; a_c_f r;
                      a_shape_d r; a_shape_k r; a_mom_defect r; a_mass_defect r; a_ke_defect r].
Definition wake_line_holds (floats : string -> option (list xr)) (line : string) (r : wrow) : Prop :=
  exists dropped, floats line = Some [w_s r; w_x r; w_y r; w_u_e_rel r; w_delta_d r; w_delta_m r;
                                      dropped; w_shape_d r].

(** [b] is the file's row [a] with the arc length measured from [s0] towards the trailing edge. *)
Definition upper_image (s0 : xr) (a b : arow) : Prop :=
  a_s b = (s0 - a_s a)%xr /\ a_x b = a_x a /\ a_y b = a_y a /\ a_u_e_rel b = a_u_e_rel a /\
  a_delta_d b = a_delta_d a /\ a_delta_m b = a_delta_m a /\ a_c_f b = a_c_f a /\
  a_shape_d b = a_shape_d a /\ a_shape_k b = a_shape_k a /\ a_mom_defect b = a_mom_defect a /\
  a_mass_defect b = a_mass_defect a /\ a_ke_defect b = a_ke_defect a.
(** The same on the lower side, where velocity and the defects odd in it change sign. *)
Definition lower_image (s0 : xr) (a b : arow) : Prop :=
  a_s b = (a_s a - s0)%xr /\ a_x b = a_x a /\ a_y b = a_y a /\
  a_u_e_rel b = (a_u_e_rel a * Fin (-1))%xr /\
  a_delta_d b = a_delta_d a /\ a_delta_m b = a_delta_m a /\ a_c_f b = a_c_f a /\
  a_shape_d b = a_shape_d a /\ a_shape_k b = a_shape_k a /\ a_mom_defect b = a_mom_defect a /\
  a_mass_defect b = (a_mass_defect a * Fin (-1))%xr /\ a_ke_defect b = (a_ke_defect a * Fin (-1))%xr.
Definition wake_image (s0 : xr) (a b : wrow) : Prop :=
  w_s b = (w_s a - s0)%xr /\ w_x b = w_x a /\ w_y b = w_y a /\ w_u_e_rel b = w_u_e_rel a /\
  w_delta_d b = w_delta_d a /\ w_delta_m b = w_delta_m a /\ w_shape_d b = w_shape_d a.

(** All twelve numbers are finite. *)
Definition finite_row (r : arow) : Prop :=
  Forall (fun v => exists x, v = Fin x)
    [a_s r; a_x r; a_y r; a_u_e_rel r; a_delta_d r; a_delta_m r; a_c_f r;
     a_shape_d r; a_shape_k r; a_mom_defect r; a_mass_defect r; a_ke_defect r].

(** Finite, nonnegative / finite, positive. *)
Definition nonneg (v : xr) : Prop := exists x, v = Fin x /\ 0 <= x.
Definition posit (v : xr) : Prop := exists x, v = Fin x /\ 0 < x.

(** Not negative / not below or at zero: a finite number of that sign, +inf, or nan. *)
Definition not_negative (v : xr) : Prop := v = NaN \/ v = PInf \/ nonneg v.
Definition not_nonpositive (v : xr) : Prop := v = NaN \/ v = PInf \/ posit v.
Definition checked_row (r : arow) : Prop :=
  not_negative (a_s r) /\ not_negative (a_delta_d r) /\ not_negative (a_delta_m r) /\
  not_negative (a_c_f r) /\ not_nonpositive (a_shape_d r) /\ not_nonpositive (a_shape_k r).
Definition checked_wake_row (r : wrow) : Prop :=
  not_negative (w_s r) /\ not_negative (w_delta_d r) /\ not_negative (w_delta_m r) /\
  not_nonpositive (w_shape_d r).

(** What XFoil guarantees of a row. *)
Definition physical_row (r : arow) : Prop :=
  nonneg (a_s r) /\ nonneg (a_delta_d r) /\ nonneg (a_delta_m r) /\ nonneg (a_c_f r) /\
  posit (a_shape_d r) /\ posit (a_shape_k r).

Definition finite_wake_row (r : wrow) : Prop :=
  Forall (fun v => exists x, v = Fin x)
    [w_s r; w_x r; w_y r; w_u_e_rel r; w_delta_d r; w_delta_m r; w_shape_d r].
Definition physical_wake_row (r : wrow) : Prop :=
  nonneg (w_s r) /\ nonneg (w_delta_d r) /\ nonneg (w_delta_m r) /\ posit (w_shape_d r).

(** The upper rows come first in the file, with nonnegative velocity; the lower rows follow,
    the first with negative velocity. *)
Definition two_sided (up lo : list arow) : Prop :=
  up <> [] /\ Forall (fun a => nonneg (a_u_e_rel a)) up /\
  match lo with
  | [] => False
  | a :: _ => exists v, a_u_e_rel a = Fin v /\ v < 0
  end.
(** The last upper row, the neighbour of the stagnation point, has velocity [v]. *)
Definition last_velocity (up : list arow) (v : R) : Prop :=
  exists b u, up = b ++ [u] /\ a_u_e_rel u = Fin v.

(** The file [f] holds the airfoil rows [rows] and the wake rows [wake]. *)
Definition file_holds (floats : string -> option (list xr)) (read : string -> res (list string))
  (f : string) (rows : list arow) (wake : list wrow) : Prop :=
  f <> ""%string /\ exists lines A W, read f = Ok lines /\ dump_file lines A W /\
    Forall2 (line_holds floats) A rows /\
    ~ In ""%string W /\ Forall2 (wake_line_holds floats) W wake.

(** The value at zero velocity of the straight line through (v1, q1) and (v2, q2). *)
Definition at_zero (v1 q1 v2 q2 : R) : R := q1 + (q2 - q1) * ((0 - v1) / (v2 - v1)).

(** A column of finite numbers. *)
Definition column (vs : list xr) (rs : list R) : Prop := vs = map Fin rs.

(** User actions on a reader: the setters, and assignments to a row obtained by [upper(i)],
    [lower(i)].  [fld] is one of the twelve attribute setters. *)
Inductive field := FS | FX | FY | FU | FDd | FDm | FCf | FHd | FHk | FMom | FMass | FKe.
Definition aset (f : field) : arow -> xr -> res arow :=
  match f with
  | FS => aset_s | FX => aset_x | FY => aset_y | FU => aset_u_e_rel | FDd => aset_delta_d
  | FDm => aset_delta_m | FCf => aset_c_f | FHd => aset_shape_d | FHk => aset_shape_k
  | FMom => aset_mom_defect | FMass => aset_mass_defect | FKe => aset_ke_defect
  end.
Inductive wfield := WS | WX | WY | WU | WDd | WDm | WHd.
Definition wset (f : wfield) : wrow -> xr -> res wrow :=
  match f with
  | WS => wset_s | WX => wset_x | WY => wset_y | WU => wset_u_e_rel | WDd => wset_delta_d
  | WDm => wset_delta_m | WHd => wset_shape_d
  end.
Inductive raction :=
| RLoad (filename : string)
| RSetURef (v : xr) | RSetC (v : xr) | RSetRe (v : xr) | RSetNTrans (v : xr)
| RSetName (v : string) | RSetAlpha (v : xr) | RSetXtUpper (v : xr) | RSetXtLower (v : xr)
| RRowUpper (i : nat) (f : field) (v : xr)
| RRowLower (i : nat) (f : field) (v : xr)
| RRowWake (i : nat) (f : wfield) (v : xr).

Section Actions.
Variable floats : string -> option (list xr).
Variable read : string -> res (list string).

Definition set_row (r : reader) (ls : list loc) (i : nat) (f : field) (v : xr) : reader * res unit :=
  match nth_error ls i with
  | None => (r, Err IndexError)
  | Some l => match aset f (get (rd_store r) l) v with
              | Err e => (r, Err e)
              | Ok a => (rwith_store r (upd (rd_store r) l a), Ok tt)
              end
  end.

Fixpoint wupd (ws : list wrow) (i : nat) (w : wrow) : list wrow :=
  match ws, i with
  | [], _ => []
  | _ :: t, O => w :: t
  | h :: t, S k => h :: wupd t k w
  end.
Definition set_wake_row (r : reader) (i : nat) (f : wfield) (v : xr) : reader * res unit :=
  match nth_error (rd_wake r) i with
  | None => (r, Err IndexError)
  | Some w => match wset f w v with
              | Err e => (r, Err e)
              | Ok w' => (rwith_wake r (wupd (rd_wake r) i w'), Ok tt)
              end
  end.

Definition do_raction (r : reader) (a : raction) : reader * res unit :=
  match a with
  | RLoad f => set_filename floats read r f
  | RSetURef v => rset_u_ref r v | RSetC v => rset_c r v | RSetRe v => rset_re r v
  | RSetNTrans v => rset_n_trans r v | RSetName v => rset_name r v | RSetAlpha v => rset_alpha r v
  | RSetXtUpper v => rset_xt_upper r v | RSetXtLower v => rset_xt_lower r v
  | RRowUpper i f v => set_row r (rd_upper r) i f v
  | RRowLower i f v => set_row r (rd_lower r) i f v
  | RRowWake i f v => set_wake_row r i f v
  end.

(** The state after a list of actions, exceptions caught by the caller. *)
Fixpoint do_ractions (r : reader) (l : list raction) : reader :=
  match l with [] => r | a :: t => do_ractions (fst (do_raction r a)) t end.
End Actions.
