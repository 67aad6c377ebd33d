(** Model of the XFoil dump reader: ibl/reference/_xfoil_reader.py and _xfoil_data.py.

    Rows are mutable objects that can be shared between the upper and the lower list, so the
    reader carries a store of rows and lists of locations.  The file system ([read]) and
    Python's conversion of a line into floats ([floats]: [float(x) for x in line.split()],
    [None] when a token is no number) are parameters. *)
From Coq Require Import Reals List Bool String Ascii.
From Verif Require Import PyBase.
Import ListNotations.
Open Scope R_scope.

(* ------------------------------------------------------------------ *)
(** * Rows *)

(** Attributes of XFoilAirfoilData, _xfoil_data.py:37-48. *)
Record arow := {
  a_s : xr;
  a_x : xr;
  a_y : xr;
  a_u_e_rel : xr;
  a_delta_d : xr;
  a_delta_m : xr;
  a_c_f : xr;
  a_shape_d : xr;
  a_shape_k : xr;
  a_mom_defect : xr;
  a_mass_defect : xr;
  a_ke_defect : xr }.

(** Record updates. *)
Definition awith_s (r : arow) (v : xr) : arow := {| a_s := v; a_x := a_x r; a_y := a_y r; a_u_e_rel := a_u_e_rel r; a_delta_d := a_delta_d r; a_delta_m := a_delta_m r; a_c_f := a_c_f r; a_shape_d := a_shape_d r; a_shape_k := a_shape_k r; a_mom_defect := a_mom_defect r; a_mass_defect := a_mass_defect r; a_ke_defect := a_ke_defect r |}.
Definition awith_x (r : arow) (v : xr) : arow := {| a_s := a_s r; a_x := v; a_y := a_y r; a_u_e_rel := a_u_e_rel r; a_delta_d := a_delta_d r; a_delta_m := a_delta_m r; a_c_f := a_c_f r; a_shape_d := a_shape_d r; a_shape_k := a_shape_k r; a_mom_defect := a_mom_defect r; a_mass_defect := a_mass_defect r; a_ke_defect := a_ke_defect r |}.
Definition awith_y (r : arow) (v : xr) : arow := {| a_s := a_s r; a_x := a_x r; a_y := v; a_u_e_rel := a_u_e_rel r; a_delta_d := a_delta_d r; a_delta_m := a_delta_m r; a_c_f := a_c_f r; a_shape_d := a_shape_d r; a_shape_k := a_shape_k r; a_mom_defect := a_mom_defect r; a_mass_defect := a_mass_defect r; a_ke_defect := a_ke_defect r |}.
Definition awith_u_e_rel (r : arow) (v : xr) : arow := {| a_s := a_s r; a_x := a_x r; a_y := a_y r; a_u_e_rel := v; a_delta_d := a_delta_d r; a_delta_m := a_delta_m r; a_c_f := a_c_f r; a_shape_d := a_shape_d r; a_shape_k := a_shape_k r; a_mom_defect := a_mom_defect r; a_mass_defect := a_mass_defect r; a_ke_defect := a_ke_defect r |}.
Definition awith_delta_d (r : arow) (v : xr) : arow := {| a_s := a_s r; a_x := a_x r; a_y := a_y r; a_u_e_rel := a_u_e_rel r; a_delta_d := v; a_delta_m := a_delta_m r; a_c_f := a_c_f r; a_shape_d := a_shape_d r; a_shape_k := a_shape_k r; a_mom_defect := a_mom_defect r; a_mass_defect := a_mass_defect r; a_ke_defect := a_ke_defect r |}.
Definition awith_delta_m (r : arow) (v : xr) : arow := {| a_s := a_s r; a_x := a_x r; a_y := a_y r; a_u_e_rel := a_u_e_rel r; a_delta_d := a_delta_d r; a_delta_m := v; a_c_f := a_c_f r; a_shape_d := a_shape_d r; a_shape_k := a_shape_k r; a_mom_defect := a_mom_defect r; a_mass_defect := a_mass_defect r; a_ke_defect := a_ke_defect r |}.
Definition awith_c_f (r : arow) (v : xr) : arow := {| a_s := a_s r; a_x := a_x r; a_y := a_y r; a_u_e_rel := a_u_e_rel r; a_delta_d := a_delta_d r; a_delta_m := a_delta_m r; a_c_f := v; a_shape_d := a_shape_d r; a_shape_k := a_shape_k r; a_mom_defect := a_mom_defect r; a_mass_defect := a_mass_defect r; a_ke_defect := a_ke_defect r |}.
Definition awith_shape_d (r : arow) (v : xr) : arow := {| a_s := a_s r; a_x := a_x r; a_y := a_y r; a_u_e_rel := a_u_e_rel r; a_delta_d := a_delta_d r; a_delta_m := a_delta_m r; a_c_f := a_c_f r; a_shape_d := v; a_shape_k := a_shape_k r; a_mom_defect := a_mom_defect r; a_mass_defect := a_mass_defect r; a_ke_defect := a_ke_defect r |}.
Definition awith_shape_k (r : arow) (v : xr) : arow := {| a_s := a_s r; a_x := a_x r; a_y := a_y r; a_u_e_rel := a_u_e_rel r; a_delta_d := a_delta_d r; a_delta_m := a_delta_m r; a_c_f := a_c_f r; a_shape_d := a_shape_d r; a_shape_k := v; a_mom_defect := a_mom_defect r; a_mass_defect := a_mass_defect r; a_ke_defect := a_ke_defect r |}.
Definition awith_mom_defect (r : arow) (v : xr) : arow := {| a_s := a_s r; a_x := a_x r; a_y := a_y r; a_u_e_rel := a_u_e_rel r; a_delta_d := a_delta_d r; a_delta_m := a_delta_m r; a_c_f := a_c_f r; a_shape_d := a_shape_d r; a_shape_k := a_shape_k r; a_mom_defect := v; a_mass_defect := a_mass_defect r; a_ke_defect := a_ke_defect r |}.
Definition awith_mass_defect (r : arow) (v : xr) : arow := {| a_s := a_s r; a_x := a_x r; a_y := a_y r; a_u_e_rel := a_u_e_rel r; a_delta_d := a_delta_d r; a_delta_m := a_delta_m r; a_c_f := a_c_f r; a_shape_d := a_shape_d r; a_shape_k := a_shape_k r; a_mom_defect := a_mom_defect r; a_mass_defect := v; a_ke_defect := a_ke_defect r |}.
Definition awith_ke_defect (r : arow) (v : xr) : arow := {| a_s := a_s r; a_x := a_x r; a_y := a_y r; a_u_e_rel := a_u_e_rel r; a_delta_d := a_delta_d r; a_delta_m := a_delta_m r; a_c_f := a_c_f r; a_shape_d := a_shape_d r; a_shape_k := a_shape_k r; a_mom_defect := a_mom_defect r; a_mass_defect := a_mass_defect r; a_ke_defect := v |}.

(** Attributes of XFoilWakeData, _xfoil_data.py:283-289. *)
Record wrow := {
  w_s : xr;
  w_x : xr;
  w_y : xr;
  w_u_e_rel : xr;
  w_delta_d : xr;
  w_delta_m : xr;
  w_shape_d : xr }.

Definition wwith_s (r : wrow) (v : xr) : wrow := {| w_s := v; w_x := w_x r; w_y := w_y r; w_u_e_rel := w_u_e_rel r; w_delta_d := w_delta_d r; w_delta_m := w_delta_m r; w_shape_d := w_shape_d r |}.
Definition wwith_x (r : wrow) (v : xr) : wrow := {| w_s := w_s r; w_x := v; w_y := w_y r; w_u_e_rel := w_u_e_rel r; w_delta_d := w_delta_d r; w_delta_m := w_delta_m r; w_shape_d := w_shape_d r |}.
Definition wwith_y (r : wrow) (v : xr) : wrow := {| w_s := w_s r; w_x := w_x r; w_y := v; w_u_e_rel := w_u_e_rel r; w_delta_d := w_delta_d r; w_delta_m := w_delta_m r; w_shape_d := w_shape_d r |}.
Definition wwith_u_e_rel (r : wrow) (v : xr) : wrow := {| w_s := w_s r; w_x := w_x r; w_y := w_y r; w_u_e_rel := v; w_delta_d := w_delta_d r; w_delta_m := w_delta_m r; w_shape_d := w_shape_d r |}.
Definition wwith_delta_d (r : wrow) (v : xr) : wrow := {| w_s := w_s r; w_x := w_x r; w_y := w_y r; w_u_e_rel := w_u_e_rel r; w_delta_d := v; w_delta_m := w_delta_m r; w_shape_d := w_shape_d r |}.
Definition wwith_delta_m (r : wrow) (v : xr) : wrow := {| w_s := w_s r; w_x := w_x r; w_y := w_y r; w_u_e_rel := w_u_e_rel r; w_delta_d := w_delta_d r; w_delta_m := v; w_shape_d := w_shape_d r |}.
Definition wwith_shape_d (r : wrow) (v : xr) : wrow := {| w_s := w_s r; w_x := w_x r; w_y := w_y r; w_u_e_rel := w_u_e_rel r; w_delta_d := w_delta_d r; w_delta_m := w_delta_m r; w_shape_d := v |}.

(** Setters of XFoilAirfoilData, _xfoil_data.py:61-213.  A rejected value leaves the row. *)
Definition aset_s (r : arow) (v : xr) : res arow :=
  if xltb v (Fin 0) then Err ValueError else Ok (awith_s r v).
Definition aset_x (r : arow) (v : xr) : res arow := Ok (awith_x r v).
Definition aset_y (r : arow) (v : xr) : res arow := Ok (awith_y r v).
Definition aset_u_e_rel (r : arow) (v : xr) : res arow := Ok (awith_u_e_rel r v).
Definition aset_delta_d (r : arow) (v : xr) : res arow :=
  if xltb v (Fin 0) then Err ValueError else Ok (awith_delta_d r v).
Definition aset_delta_m (r : arow) (v : xr) : res arow :=
  if xltb v (Fin 0) then Err ValueError else Ok (awith_delta_m r v).
Definition aset_c_f (r : arow) (v : xr) : res arow :=
  if xltb v (Fin 0) then Err ValueError else Ok (awith_c_f r v).
Definition aset_shape_d (r : arow) (v : xr) : res arow :=
  if xleb v (Fin 0) then Err ValueError else Ok (awith_shape_d r v).
Definition aset_shape_k (r : arow) (v : xr) : res arow :=
  if xleb v (Fin 0) then Err ValueError else Ok (awith_shape_k r v).
Definition aset_mom_defect (r : arow) (v : xr) : res arow := Ok (awith_mom_defect r v).
Definition aset_mass_defect (r : arow) (v : xr) : res arow := Ok (awith_mass_defect r v).
Definition aset_ke_defect (r : arow) (v : xr) : res arow := Ok (awith_ke_defect r v).

(** Setters of XFoilWakeData, _xfoil_data.py:302-388. *)
Definition wset_s (r : wrow) (v : xr) : res wrow :=
  if xltb v (Fin 0) then Err ValueError else Ok (wwith_s r v).
Definition wset_x (r : wrow) (v : xr) : res wrow := Ok (wwith_x r v).
Definition wset_y (r : wrow) (v : xr) : res wrow := Ok (wwith_y r v).
Definition wset_u_e_rel (r : wrow) (v : xr) : res wrow := Ok (wwith_u_e_rel r v).
Definition wset_delta_d (r : wrow) (v : xr) : res wrow :=
  if xltb v (Fin 0) then Err ValueError else Ok (wwith_delta_d r v).
Definition wset_delta_m (r : wrow) (v : xr) : res wrow :=
  if xltb v (Fin 0) then Err ValueError else Ok (wwith_delta_m r v).
Definition wset_shape_d (r : wrow) (v : xr) : res wrow :=
  if xleb v (Fin 0) then Err ValueError else Ok (wwith_shape_d r v).

(** The row of [reset("")], _xfoil_data.py:230-243 and 405-413: everything inf. *)
Definition arow_inf : arow := {| a_s := PInf; a_x := PInf; a_y := PInf; a_u_e_rel := PInf; a_delta_d := PInf; a_delta_m := PInf; a_c_f := PInf; a_shape_d := PInf; a_shape_k := PInf; a_mom_defect := PInf; a_mass_defect := PInf; a_ke_defect := PInf |}.
Definition wrow_inf : wrow := {| w_s := PInf; w_x := PInf; w_y := PInf; w_u_e_rel := PInf; w_delta_d := PInf; w_delta_m := PInf; w_shape_d := PInf |}.

Section WithText.

(** [float(x) for x in data.split()], or [None] when that raises ValueError. *)
Variable floats : string -> option (list xr).
(** open(filename).readlines() *)
Variable read : string -> res (list string).

(** _xfoil_data.py:246-264: assigning the twelve columns, in this order. *)
Definition fill_arow (r : arow) (cols : list xr) : res arow :=
  match cols with
  | [s; x; y; u_e_rel; delta_d; delta_m; c_f; shape_d; shape_k; mom_defect; mass_defect; ke_defect] =>
      bind (aset_s r s) (fun r =>
      bind (aset_x r x) (fun r =>
      bind (aset_y r y) (fun r =>
      bind (aset_u_e_rel r u_e_rel) (fun r =>
      bind (aset_delta_d r delta_d) (fun r =>
      bind (aset_delta_m r delta_m) (fun r =>
      bind (aset_c_f r c_f) (fun r =>
      bind (aset_shape_d r shape_d) (fun r =>
      bind (aset_shape_k r shape_k) (fun r =>
      bind (aset_mom_defect r mom_defect) (fun r =>
      bind (aset_mass_defect r mass_defect) (fun r =>
      bind (aset_ke_defect r ke_defect) (fun r =>
      Ok r))))))))))))
  | _ => Err ValueError
  end.

(** _xfoil_data.py:28-50 and 215-264: XFoilAirfoilData(data). *)
Definition new_arow (data : string) : res arow :=
  if String.eqb data "" then Ok arow_inf
  else match floats data with
       | None => Err ValueError
       | Some cols => fill_arow arow_inf cols
       end.

(** _xfoil_data.py:416-428: assigning the wake columns; the seventh is dropped. *)
Definition fill_wrow (r : wrow) (cols : list xr) : res wrow :=
  match cols with
  | [s; x; y; u_e_rel; delta_d; delta_m; _; shape_d] =>
      bind (wset_s r s) (fun r =>
      bind (wset_x r x) (fun r =>
      bind (wset_y r y) (fun r =>
      bind (wset_u_e_rel r u_e_rel) (fun r =>
      bind (wset_delta_d r delta_d) (fun r =>
      bind (wset_delta_m r delta_m) (fun r =>
      bind (wset_shape_d r shape_d) (fun r =>
      Ok r)))))))
  | _ => Err ValueError
  end.

(** _xfoil_data.py:274-291 and 390-428: XFoilWakeData(data). *)
Definition new_wrow (data : string) : res wrow :=
  if String.eqb data "" then Ok wrow_inf
  else match floats data with
       | None => Err ValueError
       | Some cols => fill_wrow wrow_inf cols
       end.

(* ------------------------------------------------------------------ *)
(** * The reader *)

Definition loc := nat.

(** Attributes of XFoilReader, _xfoil_reader.py:43-53, with the store of rows. *)
Record reader := {
  rd_filename : string;
  rd_name : string;
  rd_alpha : xr;
  rd_u_ref : xr;
  rd_c : xr;
  rd_re : xr;
  rd_xt_upper : xr;
  rd_xt_lower : xr;
  rd_n_trans : xr;
  rd_store : list arow;
  rd_upper : list loc;
  rd_lower : list loc;
  rd_wake : list wrow }.

Definition rwith_filename (r : reader) (v : string) : reader := {| rd_filename := v; rd_name := rd_name r; rd_alpha := rd_alpha r; rd_u_ref := rd_u_ref r; rd_c := rd_c r; rd_re := rd_re r; rd_xt_upper := rd_xt_upper r; rd_xt_lower := rd_xt_lower r; rd_n_trans := rd_n_trans r; rd_store := rd_store r; rd_upper := rd_upper r; rd_lower := rd_lower r; rd_wake := rd_wake r |}.
Definition rwith_name (r : reader) (v : string) : reader := {| rd_filename := rd_filename r; rd_name := v; rd_alpha := rd_alpha r; rd_u_ref := rd_u_ref r; rd_c := rd_c r; rd_re := rd_re r; rd_xt_upper := rd_xt_upper r; rd_xt_lower := rd_xt_lower r; rd_n_trans := rd_n_trans r; rd_store := rd_store r; rd_upper := rd_upper r; rd_lower := rd_lower r; rd_wake := rd_wake r |}.
Definition rwith_alpha (r : reader) (v : xr) : reader := {| rd_filename := rd_filename r; rd_name := rd_name r; rd_alpha := v; rd_u_ref := rd_u_ref r; rd_c := rd_c r; rd_re := rd_re r; rd_xt_upper := rd_xt_upper r; rd_xt_lower := rd_xt_lower r; rd_n_trans := rd_n_trans r; rd_store := rd_store r; rd_upper := rd_upper r; rd_lower := rd_lower r; rd_wake := rd_wake r |}.
Definition rwith_u_ref (r : reader) (v : xr) : reader := {| rd_filename := rd_filename r; rd_name := rd_name r; rd_alpha := rd_alpha r; rd_u_ref := v; rd_c := rd_c r; rd_re := rd_re r; rd_xt_upper := rd_xt_upper r; rd_xt_lower := rd_xt_lower r; rd_n_trans := rd_n_trans r; rd_store := rd_store r; rd_upper := rd_upper r; rd_lower := rd_lower r; rd_wake := rd_wake r |}.
Definition rwith_c (r : reader) (v : xr) : reader := {| rd_filename := rd_filename r; rd_name := rd_name r; rd_alpha := rd_alpha r; rd_u_ref := rd_u_ref r; rd_c := v; rd_re := rd_re r; rd_xt_upper := rd_xt_upper r; rd_xt_lower := rd_xt_lower r; rd_n_trans := rd_n_trans r; rd_store := rd_store r; rd_upper := rd_upper r; rd_lower := rd_lower r; rd_wake := rd_wake r |}.
Definition rwith_re (r : reader) (v : xr) : reader := {| rd_filename := rd_filename r; rd_name := rd_name r; rd_alpha := rd_alpha r; rd_u_ref := rd_u_ref r; rd_c := rd_c r; rd_re := v; rd_xt_upper := rd_xt_upper r; rd_xt_lower := rd_xt_lower r; rd_n_trans := rd_n_trans r; rd_store := rd_store r; rd_upper := rd_upper r; rd_lower := rd_lower r; rd_wake := rd_wake r |}.
Definition rwith_xt_upper (r : reader) (v : xr) : reader := {| rd_filename := rd_filename r; rd_name := rd_name r; rd_alpha := rd_alpha r; rd_u_ref := rd_u_ref r; rd_c := rd_c r; rd_re := rd_re r; rd_xt_upper := v; rd_xt_lower := rd_xt_lower r; rd_n_trans := rd_n_trans r; rd_store := rd_store r; rd_upper := rd_upper r; rd_lower := rd_lower r; rd_wake := rd_wake r |}.
Definition rwith_xt_lower (r : reader) (v : xr) : reader := {| rd_filename := rd_filename r; rd_name := rd_name r; rd_alpha := rd_alpha r; rd_u_ref := rd_u_ref r; rd_c := rd_c r; rd_re := rd_re r; rd_xt_upper := rd_xt_upper r; rd_xt_lower := v; rd_n_trans := rd_n_trans r; rd_store := rd_store r; rd_upper := rd_upper r; rd_lower := rd_lower r; rd_wake := rd_wake r |}.
Definition rwith_n_trans (r : reader) (v : xr) : reader := {| rd_filename := rd_filename r; rd_name := rd_name r; rd_alpha := rd_alpha r; rd_u_ref := rd_u_ref r; rd_c := rd_c r; rd_re := rd_re r; rd_xt_upper := rd_xt_upper r; rd_xt_lower := rd_xt_lower r; rd_n_trans := v; rd_store := rd_store r; rd_upper := rd_upper r; rd_lower := rd_lower r; rd_wake := rd_wake r |}.
Definition rwith_store (r : reader) (v : list arow) : reader := {| rd_filename := rd_filename r; rd_name := rd_name r; rd_alpha := rd_alpha r; rd_u_ref := rd_u_ref r; rd_c := rd_c r; rd_re := rd_re r; rd_xt_upper := rd_xt_upper r; rd_xt_lower := rd_xt_lower r; rd_n_trans := rd_n_trans r; rd_store := v; rd_upper := rd_upper r; rd_lower := rd_lower r; rd_wake := rd_wake r |}.
Definition rwith_upper (r : reader) (v : list loc) : reader := {| rd_filename := rd_filename r; rd_name := rd_name r; rd_alpha := rd_alpha r; rd_u_ref := rd_u_ref r; rd_c := rd_c r; rd_re := rd_re r; rd_xt_upper := rd_xt_upper r; rd_xt_lower := rd_xt_lower r; rd_n_trans := rd_n_trans r; rd_store := rd_store r; rd_upper := v; rd_lower := rd_lower r; rd_wake := rd_wake r |}.
Definition rwith_lower (r : reader) (v : list loc) : reader := {| rd_filename := rd_filename r; rd_name := rd_name r; rd_alpha := rd_alpha r; rd_u_ref := rd_u_ref r; rd_c := rd_c r; rd_re := rd_re r; rd_xt_upper := rd_xt_upper r; rd_xt_lower := rd_xt_lower r; rd_n_trans := rd_n_trans r; rd_store := rd_store r; rd_upper := rd_upper r; rd_lower := v; rd_wake := rd_wake r |}.
Definition rwith_wake (r : reader) (v : list wrow) : reader := {| rd_filename := rd_filename r; rd_name := rd_name r; rd_alpha := rd_alpha r; rd_u_ref := rd_u_ref r; rd_c := rd_c r; rd_re := rd_re r; rd_xt_upper := rd_xt_upper r; rd_xt_lower := rd_xt_lower r; rd_n_trans := rd_n_trans r; rd_store := rd_store r; rd_upper := rd_upper r; rd_lower := rd_lower r; rd_wake := v |}.

(** Reading and writing a row of the store. *)
Definition get (st : list arow) (l : loc) : arow := nth l st arow_inf.
Fixpoint upd (st : list arow) (l : loc) (r : arow) : list arow :=
  match st, l with
  | [], _ => []
  | _ :: t, O => r :: t
  | h :: t, S k => h :: upd t k r
  end.

(** for a in ...: a.field = f(a) *)
Fixpoint each (f : arow -> res arow) (ls : list loc) (st : list arow) : list arow * res unit :=
  match ls with
  | [] => (st, Ok tt)
  | l :: t => match f (get st l) with
              | Err e => (st, Err e)
              | Ok r => each f t (upd st l r)
              end
  end.

Fixpoint map_r {A B} (f : A -> res B) (l : list A) : res (list B) :=
  match l with
  | [] => Ok []
  | a :: t => bind (f a) (fun b => bind (map_r f t) (fun r => Ok (b :: r)))
  end.

(** _xfoil_reader.py:73-155 setters. *)
Definition rset_u_ref (r : reader) (v : xr) : reader * res unit :=
  if xleb v (Fin 0) then (r, Err ValueError) else (rwith_u_ref r v, Ok tt).
Definition rset_c (r : reader) (v : xr) : reader * res unit :=
  if xleb v (Fin 0) then (r, Err ValueError) else (rwith_c r v, Ok tt).
Definition rset_re (r : reader) (v : xr) : reader * res unit :=
  if xltb v (Fin 0) then (r, Err ValueError) else (rwith_re r v, Ok tt).
Definition rset_n_trans (r : reader) (v : xr) : reader * res unit :=
  if xleb v (Fin 0) then (r, Err ValueError) else (rwith_n_trans r v, Ok tt).
Definition rset_name (r : reader) (v : string) : reader * res unit := (rwith_name r v, Ok tt).
Definition rset_alpha (r : reader) (v : xr) : reader * res unit := (rwith_alpha r v, Ok tt).
Definition rset_xt_upper (r : reader) (v : xr) : reader * res unit := (rwith_xt_upper r v, Ok tt).
Definition rset_xt_lower (r : reader) (v : xr) : reader * res unit := (rwith_xt_lower r v, Ok tt).

(** _xfoil_reader.py:795-800: index of the first line shorter than 80 characters. *)
Fixpoint short_line (ls : list string) (idx : nat) : option nat :=
  match ls with
  | [] => None
  | l :: t => if Nat.ltb (String.length l) 80 then Some idx else short_line t (S idx)
  end.

(** _xfoil_reader.py:774-814 [_get_dump_data].  Lines returned by readlines are not empty;
    for an empty line the model takes the same IndexError as for an empty file. *)
Definition get_dump_data (filename : string) : res (list string * list string) :=
  bind (read filename) (fun buff =>
  let wake_idx := short_line buff 0 in
  match buff with
  | [] => Err IndexError
  | l0 :: _ =>
      match String.get 0 l0 with
      | None => Err IndexError
      | Some ch =>
          let start := if Ascii.eqb ch "#"%char then 1%nat else 0%nat in
          match wake_idx with
          | Some (S k) => Ok (skipn start (firstn (S k) buff), skipn (S k) buff)
          | _ => Ok (skipn start buff, [])
          end
      end
  end).

(** _xfoil_reader.py:185-191: the upper rows, up to the first negative velocity. *)
Fixpoint upper_loop (lines : list string) (idx : nat) (st : list arow) (up : list loc)
  : list arow * list loc * res (option nat) :=
  match lines with
  | [] => (st, up, Ok None)
  | ad :: t =>
      match new_arow ad with
      | Err e => (st, up, Err e)
      | Ok p => if xltb (a_u_e_rel p) (Fin 0) then (st, up, Ok (Some idx))
                else upper_loop t (S idx) (st ++ [p]) (List.length st :: up)
      end
  end.

(** airfoil_data[idx_lower:] with idx_lower = -1 when no row was negative. *)
Definition lower_lines (lines : list string) (idx : option nat) : list string :=
  match idx with
  | Some k => skipn k lines
  | None => skipn (List.length lines - 1) lines
  end.

(** _xfoil_reader.py:195-198. *)
Definition negate_row (a : arow) : res arow :=
  bind (aset_u_e_rel a (a_u_e_rel a * Fin (-1))%xr) (fun a =>
  bind (aset_mass_defect a (a_mass_defect a * Fin (-1))%xr) (fun a =>
  aset_ke_defect a (a_ke_defect a * Fin (-1))%xr)).

(** _xfoil_reader.py:816-834 [_interpolate_aifoil_data]. *)
Definition mix (frac lo up : xr) : xr := (frac * lo + (Fin 1 - frac) * up)%xr.
Definition mix_signed (frac lo up : xr) : xr := xabs (- frac * lo + (Fin 1 - frac) * up)%xr.
Definition interpolate (up lo : arow) (frac : xr) : res arow :=
  bind (aset_u_e_rel arow_inf (Fin 0)) (fun p =>
  bind (aset_x p (mix_signed frac (a_x lo) (a_x up))) (fun p =>
  bind (aset_u_e_rel p (mix_signed frac (a_u_e_rel lo) (a_u_e_rel up))) (fun p =>
  bind (aset_s p (mix frac (a_s lo) (a_s up))) (fun p =>
  bind (aset_y p (mix frac (a_y lo) (a_y up))) (fun p =>
  bind (aset_delta_d p (mix frac (a_delta_d lo) (a_delta_d up))) (fun p =>
  bind (aset_delta_m p (mix frac (a_delta_m lo) (a_delta_m up))) (fun p =>
  bind (aset_c_f p (mix frac (a_c_f lo) (a_c_f up))) (fun p =>
  bind (aset_shape_d p (mix frac (a_shape_d lo) (a_shape_d up))) (fun p =>
  bind (aset_shape_k p (mix frac (a_shape_k lo) (a_shape_k up))) (fun p =>
  bind (aset_mom_defect p (mix frac (a_mom_defect lo) (a_mom_defect up))) (fun p =>
  bind (aset_mass_defect p (mix frac (a_mass_defect lo) (a_mass_defect up))) (fun p =>
  aset_ke_defect p (mix frac (a_ke_defect lo) (a_ke_defect up)))))))))))))).

(** _xfoil_reader.py:200-214: the stagnation point is put in front of both lists.  Answer: the
    new store and lists and stag_s. *)
Definition insert_stagnation (st : list arow) (up lo : list loc)
  : res (list arow * list loc * list loc * xr) :=
  match up with
  | [] => Err IndexError
  | u0 :: _ =>
      let u := get st u0 in
      if xeqb (a_u_e_rel u) (Fin 0) then Ok (st, up, u0 :: lo, a_s u)
      else match lo with
      | [] => Err IndexError
      | l0 :: _ =>
          let l := get st l0 in
          bind (py_div (a_u_e_rel u) (a_u_e_rel u + a_u_e_rel l)%xr) (fun frac =>
          bind (interpolate u l frac) (fun p =>
          let n := List.length st in
          Ok (st ++ [p; p], n :: up, S n :: lo, a_s p)))
      end
  end.

(** _xfoil_reader.py:217-220. *)
Definition upper_arc (stag_s : xr) (a : arow) : res arow := aset_s a (stag_s - a_s a)%xr.
Definition lower_arc (stag_s : xr) (a : arow) : res arow := aset_s a (a_s a - stag_s)%xr.

(** _xfoil_reader.py:223-227: the wake's arc lengths from its first row, in place; on an
    exception the rows before it have been changed. *)
Fixpoint shift_wake_st (off : xr) (ws : list wrow) : list wrow * res unit :=
  match ws with
  | [] => ([], Ok tt)
  | w :: t => match wset_s w (w_s w - off)%xr with
              | Err e => (w :: t, Err e)
              | Ok w' => let (t', r) := shift_wake_st off t in (w' :: t', r)
              end
  end.

(** _xfoil_reader.py:166-177: what the setter resets before anything else. *)
Definition rreset (r : reader) : reader :=
  rwith_wake (rwith_lower (rwith_upper (rwith_store (rwith_n_trans (rwith_xt_lower
  (rwith_xt_upper (rwith_re (rwith_c (rwith_u_ref (rwith_alpha (rwith_name (rwith_filename r
  "") "") PInf) (Fin 1)) (Fin 1)) (Fin 0)) PInf) PInf) PInf) []) []) []) [].

(** _xfoil_reader.py:164-227 the [filename] setter. *)
Definition set_filename (r : reader) (filename : string) : reader * res unit :=
  let r0 := rreset r in
  if String.eqb filename "" then (r0, Ok tt)
  else match get_dump_data filename with
  | Err e => (r0, Err e)
  | Ok (airfoil, wake) =>
      match upper_loop airfoil 0 [] [] with
      | (st, up, Err e) => (rwith_upper (rwith_store r0 st) up, Err e)
      | (st, up, Ok idx) =>
          let r1 := rwith_upper (rwith_store r0 st) up in
          match map_r new_arow (lower_lines airfoil idx) with
          | Err e => (r1, Err e)
          | Ok rows =>
              let lo := seq (List.length st) (List.length rows) in
              match each negate_row lo (st ++ rows) with
              | (st2, Err e) => (rwith_lower (rwith_store r1 st2) lo, Err e)
              | (st2, Ok _) =>
                  let r2 := rwith_lower (rwith_store r1 st2) lo in
                  match insert_stagnation st2 up lo with
                  | Err e => (r2, Err e)
                  | Ok (st3, up3, lo3, stag_s) =>
                      let r3 := rwith_lower (rwith_upper (rwith_store r2 st3) up3) lo3 in
                      match each (upper_arc stag_s) up3 st3 with
                      | (st4, Err e) => (rwith_store r3 st4, Err e)
                      | (st4, Ok _) =>
                          match each (lower_arc stag_s) lo3 st4 with
                          | (st5, Err e) => (rwith_store r3 st5, Err e)
                          | (st5, Ok _) =>
                              let r5 := rwith_store r3 st5 in
                              match wake with
                              | [] => (r5, Ok tt)
                              | _ =>
                                  match map_r new_wrow wake with
                                  | Err e => (r5, Err e)
                                  | Ok ws =>
                                      let off := match ws with w :: _ => w_s w | [] => PInf end in
                                      let (ws', res) := shift_wake_st off ws in
                                      (rwith_wake r5 ws', res)
                                  end
                              end
                          end
                      end
                  end
              end
          end
      end
  end.

(** _xfoil_reader.py:34-54 the constructor: defaults, then the [filename] setter. *)
Definition reader0 : reader :=
  {| rd_filename := ""; rd_name := ""; rd_alpha := PInf; rd_u_ref := Fin 1; rd_c := Fin 1;
     rd_re := Fin 0; rd_xt_upper := PInf; rd_xt_lower := PInf; rd_n_trans := PInf;
     rd_store := []; rd_upper := []; rd_lower := []; rd_wake := [] |}.
Definition new_reader (filename : string) : res reader :=
  match set_filename reader0 filename with
  | (r, Ok _) => Ok r
  | (_, Err e) => Err e
  end.

End WithText.

(* ------------------------------------------------------------------ *)
(** * Accessors, _xfoil_reader.py:229-772 *)

Definition upper_rows (r : reader) : list arow := map (get (rd_store r)) (rd_upper r).
Definition lower_rows (r : reader) : list arow := map (get (rd_store r)) (rd_lower r).
Definition upper_count (r : reader) : nat := List.length (rd_upper r).
Definition lower_count (r : reader) : nat := List.length (rd_lower r).
Definition wake_count (r : reader) : nat := List.length (rd_wake r).

Definition qs_upper (r : reader) : list xr := map a_s (upper_rows r).
Definition qs_lower (r : reader) : list xr := map a_s (lower_rows r).
Definition qx_upper (r : reader) : list xr := map a_x (upper_rows r).
Definition qx_lower (r : reader) : list xr := map a_x (lower_rows r).
Definition qy_upper (r : reader) : list xr := map a_y (upper_rows r).
Definition qy_lower (r : reader) : list xr := map a_y (lower_rows r).
Definition qdelta_d_upper (r : reader) : list xr := map a_delta_d (upper_rows r).
Definition qdelta_d_lower (r : reader) : list xr := map a_delta_d (lower_rows r).
Definition qdelta_m_upper (r : reader) : list xr := map a_delta_m (upper_rows r).
Definition qdelta_m_lower (r : reader) : list xr := map a_delta_m (lower_rows r).
Definition qshape_d_upper (r : reader) : list xr := map a_shape_d (upper_rows r).
Definition qshape_d_lower (r : reader) : list xr := map a_shape_d (lower_rows r).
Definition qshape_k_upper (r : reader) : list xr := map a_shape_k (upper_rows r).
Definition qshape_k_lower (r : reader) : list xr := map a_shape_k (lower_rows r).
Definition qc_f_upper (r : reader) : list xr := map a_c_f (upper_rows r).
Definition qc_f_lower (r : reader) : list xr := map a_c_f (lower_rows r).
Definition qmass_defect_upper (r : reader) : list xr := map a_mass_defect (upper_rows r).
Definition qmass_defect_lower (r : reader) : list xr := map a_mass_defect (lower_rows r).
Definition qmom_defect_upper (r : reader) : list xr := map a_mom_defect (upper_rows r).
Definition qmom_defect_lower (r : reader) : list xr := map a_mom_defect (lower_rows r).
Definition qke_defect_upper (r : reader) : list xr := map a_ke_defect (upper_rows r).
Definition qke_defect_lower (r : reader) : list xr := map a_ke_defect (lower_rows r).
Definition qu_e_upper (r : reader) : list xr := map (fun v => rd_u_ref r * v)%xr (map a_u_e_rel (upper_rows r)).
Definition qdelta_k_upper (r : reader) : list xr := map (fun d => a_shape_k d * a_delta_m d)%xr (upper_rows r).
Definition qu_e_lower (r : reader) : list xr := map (fun v => rd_u_ref r * v)%xr (map a_u_e_rel (lower_rows r)).
Definition qdelta_k_lower (r : reader) : list xr := map (fun d => a_shape_k d * a_delta_m d)%xr (lower_rows r).
Definition qs_wake (r : reader) : list xr := map w_s (rd_wake r).
Definition qx_wake (r : reader) : list xr := map w_x (rd_wake r).
Definition qy_wake (r : reader) : list xr := map w_y (rd_wake r).
Definition qdelta_d_wake (r : reader) : list xr := map w_delta_d (rd_wake r).
Definition qdelta_m_wake (r : reader) : list xr := map w_delta_m (rd_wake r).
Definition qshape_d_wake (r : reader) : list xr := map w_shape_d (rd_wake r).
Definition qu_e_wake (r : reader) : list xr := map (fun v => rd_u_ref r * v)%xr (map w_u_e_rel (rd_wake r)).
