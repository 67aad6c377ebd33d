(** Specification vocabulary for the 1968 Stanford data readers. *)
From Coq Require Import Reals List Bool String Ascii.
From Verif Require Import PyBase StanfordModel.
Import ListNotations.
Open Scope R_scope.

(** * Units *)

Inductive units := SI | US.
Definition is_si (u : units) : bool := match u with SI => true | US => false end.

(** Metres per printed unit of length (m, ft), of thickness (cm, in), and m^2/s per printed unit
    of viscosity (cm^2/s, ft^2/s). *)
Definition length_unit (u : units) : R := match u with SI => 1 | US => 3048 / 10000 end.
Definition thickness_unit (u : units) : R := match u with SI => 1 / 100 | US => 254 / 10000 end.
Definition viscosity_unit (u : units) : R :=
  match u with SI => 1 / 10000 | US => 9290304 / 100000000 end.

(** * What the tables describe, in metres and seconds *)

(** One row of the case's summary table. *)
Record flow := {
  f_x : R; f_u_e : R; f_du_e : R; f_theta : R; f_h : R; f_hs : R; f_g : R;
  f_cf : R; f_cf_lt : R; f_cf_exp : R; f_beta : R }.
Definition summary_columns (u : units) (f : flow) : list R :=
  [f_x f / length_unit u; f_u_e f / length_unit u; f_du_e f; f_theta f / thickness_unit u;
   f_h f; f_hs f; f_g f; f_cf f; f_cf_lt f; f_cf_exp f; f_beta f].

(** The summary line of a station. *)
Record detail := {
  d_x : R; d_us : R; d_u_e : R; d_nu : R; d_theta : R; d_dels : R; d_enth : R; d_clth : R;
  d_h : R; d_g : R; d_hs : R; d_re_theta : R; d_re_dels : R }.
Definition detail_columns (u : units) (d : detail) : list R :=
  [d_x d / length_unit u; d_us d / length_unit u; d_u_e d / length_unit u;
   d_nu d / viscosity_unit u;
   d_theta d / thickness_unit u; d_dels d / thickness_unit u; d_enth d / thickness_unit u;
   d_clth d / thickness_unit u; d_h d; d_g d; d_hs d; d_re_theta d; d_re_dels d].

(** One profile sample; [p_ratio] is u/u_e. *)
Record profile := { p_yplus : R; p_uplus : R; p_y : R; p_ratio : R; p_yc : R; p_defect : R }.
Definition profile_columns (u : units) (p : profile) : list R :=
  [p_yplus p; p_uplus p; p_y p / thickness_unit u; p_ratio p; p_yc p; p_defect p].

(** One row of the smoothed velocity table. *)
Record velocity := { v_x : R; v_u_e : R; v_du_e : R }.
Definition velocity_columns (u : units) (v : velocity) : list R :=
  [v_x v / length_unit u; v_u_e v / length_unit u; v_du_e v].

(** The text prints these numbers. *)
Definition prints (floats : string -> option (list xr)) (text : string) (columns : list R) : Prop :=
  floats text = Some (map Fin columns).

(** * Acceptable data *)

Definition positive_flow (f : flow) : Prop :=
  0 < f_u_e f /\ 0 < f_theta f /\ 0 < f_h f /\ 0 < f_hs f /\ 0 < f_g f.
Definition positive_detail (d : detail) : Prop :=
  0 < d_us d /\ 0 < d_u_e d /\ 0 < d_nu d /\ 0 < d_theta d /\ 0 < d_dels d /\ 0 < d_enth d /\
  0 < d_clth d /\ 0 < d_h d /\ 0 < d_g d /\ 0 < d_hs d /\ 0 < d_re_theta d /\ 0 < d_re_dels d.
(** The two tables tell the same about the station, within these tolerances. *)
Definition agree (f : flow) (d : detail) : Prop :=
  Rabs (d_x d - f_x f) < 2 / 1000 /\
  Rabs (d_u_e d - f_u_e f) < 6 / 100 /\
  Rabs (d_theta d - f_theta f) < 2 / 1000 /\
  Rabs (d_h d - f_h f) < 2 / 1000 /\
  Rabs (d_hs d - f_hs f) < 2 / 1000 /\
  Rabs (d_g d - f_g f) < 2 / 1000 /\
  Rabs (d_dels d - f_h f * f_theta f) < 5 / 1000 /\
  Rabs (d_enth d - f_hs f * f_theta f) < 5 / 1000 /\
  Rabs (d_re_dels d - f_u_e f * d_dels d / d_nu d) < 5 /\
  Rabs (d_re_theta d - f_u_e f * d_theta d / d_nu d) < 5 /\
  Rabs (d_us d - f_u_e f * sqrt (f_cf f / 2)) < 5 / 1000.
(** The sample's wall and outer coordinates match the station's parameters. *)
Definition sample_agrees (d : detail) (p : profile) : Prop :=
  Rabs (p_yplus p - p_y p * d_us d / d_nu d) <= 1 /\
  Rabs (p_yc p - p_y p / d_clth d) <= 1 / 2 /\
  Rabs (p_uplus p - d_u_e d * p_ratio p / d_us d) <= 1 / 2 /\
  Rabs (p_defect p - (d_u_e d - d_u_e d * p_ratio p) / d_us d) <= 1 / 2.

(** * What a loaded station shows *)

Definition shows_common (s : station) (f : flow) : Prop :=
  st_du_e s = Fin (f_du_e f) /\ st_c_f s = Fin (f_cf f) /\ st_c_f_lt s = Fin (f_cf_lt f) /\
  st_c_f_exp s = Fin (f_cf_exp f) /\ st_beta_eq s = Fin (f_beta f).
(** Without a station line: the table's values and the derived ones; the rest is inf. *)
Definition shows_flow (s : station) (f : flow) : Prop :=
  shows_common s f /\
  st_x s = Fin (f_x f) /\ st_u_e s = Fin (f_u_e f) /\ st_delta_m s = Fin (f_theta f) /\
  st_shape_d s = Fin (f_h f) /\ st_shape_k s = Fin (f_hs f) /\ st_shape_eq s = Fin (f_g f) /\
  st_delta_d s = Fin (f_h f * f_theta f) /\ st_delta_k s = Fin (f_hs f * f_theta f) /\
  st_u_star s = Fin (f_u_e f * sqrt (f_cf f / 2)) /\
  st_nu s = PInf /\ st_delta_c s = PInf /\ st_re_delta_m s = PInf /\ st_re_delta_d s = PInf.
(** With one: its values. *)
Definition shows_detail (s : station) (f : flow) (d : detail) : Prop :=
  shows_common s f /\
  st_x s = Fin (d_x d) /\ st_u_e s = Fin (d_u_e d) /\ st_delta_m s = Fin (d_theta d) /\
  st_shape_d s = Fin (d_h d) /\ st_shape_k s = Fin (d_hs d) /\ st_shape_eq s = Fin (d_g d) /\
  st_delta_d s = Fin (d_dels d) /\ st_delta_k s = Fin (d_enth d) /\ st_u_star s = Fin (d_us d) /\
  st_nu s = Fin (d_nu d) /\ st_delta_c s = Fin (d_clth d) /\
  st_re_delta_m s = Fin (d_re_theta d) /\ st_re_delta_d s = Fin (d_re_dels d).
Definition shows_profile (s : station) (d : detail) (ps : list profile) : Prop :=
  sa_y_plus s = map (fun p => Fin (p_yplus p)) ps /\
  sa_u_plus s = map (fun p => Fin (p_uplus p)) ps /\
  sa_y s = map (fun p => Fin (p_y p)) ps /\
  sa_u s = map (fun p => Fin (d_u_e d * p_ratio p)) ps /\
  sa_y_c s = map (fun p => Fin (p_yc p)) ps /\
  sa_u_defect s = map (fun p => Fin (p_defect p)) ps.
Definition shows_no_profile (s : station) : Prop :=
  sa_y_plus s = [] /\ sa_u_plus s = [] /\ sa_y s = [] /\ sa_u s = [] /\ sa_y_c s = [] /\
  sa_u_defect s = [].

(** * Rewriting a US row in SI units (any numbers, including inf and nan) *)

Definition ft (v : xr) : xr := (v * Fin (3048 / 10000))%xr.          (* ft -> m *)
Definition inch (v : xr) : xr := (v * Fin (254 / 100))%xr.           (* in -> cm *)
Definition ft2 (v : xr) : xr := (v * Fin (9290304 / 10000))%xr.      (* ft^2/s -> cm^2/s *)
Definition summary_to_si (l : list xr) : list xr :=
  match l with
  | [x; ui; dui; theta; h; hs; g; cf; cflt; cfe; beta] =>
      [ft x; ft ui; dui; inch theta; h; hs; g; cf; cflt; cfe; beta]
  | _ => l
  end.
Definition detail_to_si (l : list xr) : list xr :=
  match l with
  | [x; us; ui; v; theta; dels; enth; clth; h; g; hs; rtheta; rdels] =>
      [ft x; ft us; ft ui; ft2 v; inch theta; inch dels; inch enth; inch clth; h; g; hs; rtheta; rdels]
  | _ => l
  end.
Definition profile_to_si (l : list xr) : list xr :=
  match l with
  | [yplus; uplus; y; uoui; ycd; udef] => [yplus; uplus; inch y; uoui; ycd; udef]
  | _ => l
  end.
Definition velocity_to_si (l : list xr) : list xr :=
  match l with [x; ui; dui] => [ft x; ft ui; dui] | _ => l end.
(** [t_si] is the US row [t_us] rewritten. *)
Definition rewritten (floats : string -> option (list xr)) (conv : list xr -> list xr)
  (t_us t_si : string) : Prop :=
  floats t_si = match floats t_us with Some l => Some (conv l) | None => None end.

(** * Case files *)

(** The line contains "# ". *)
Definition header_line (l : string) : Prop := exists a b, l = (a ++ "# " ++ b)%string.
Definition has_newline (t : string) : Prop := exists a b, t = (a ++ String nl b)%string.

(** The lines of a file holding these rows: each ends in a newline, the last may not. *)
Definition lines_of (lines texts : list string) : Prop :=
  Forall (fun t => ~ has_newline t) texts /\
  (lines = map (fun t => t ++ String nl "")%string texts \/
   exists init last, texts = init ++ [last] /\
     lines = map (fun t => t ++ String nl "")%string init ++ [last]).

Record section := { sc_head1 : string; sc_head2 : string; sc_lines : list string }.
Definition section_lines (c : section) : list string := sc_head1 c :: sc_head2 c :: sc_lines c.
Definition well_headed (c : section) : Prop :=
  header_line (sc_head1 c) /\ header_line (sc_head2 c) /\
  Forall (fun l => ~ header_line l) (sc_lines c).

(** A one-line header and its rows, then sections with two-line headers.  Lines before the first
    header do not matter. *)
Definition case_file (lines leading : list string) (head : string) (rows : list string)
  (sections : list section) : Prop :=
  lines = leading ++ head :: rows ++ flat_map section_lines sections /\
  Forall (fun l => ~ header_line l) leading /\ header_line head /\
  Forall (fun l => ~ header_line l) rows /\ Forall well_headed sections.

(** The rows that are not empty. *)
Definition rows_kept (texts : list string) : list string :=
  filter (fun t => negb (String.eqb t "")) texts.

(** "key = value" with any blanks around both. *)
Definition blank (s : string) : Prop := Forall (fun c => PyText.is_space c = true) (list_ascii_of_string s).
Definition plain_word (s : string) : Prop :=
  Forall (fun c => PyText.is_space c = false /\ c <> "="%char) (list_ascii_of_string s).
Definition assigns (text key value : string) : Prop :=
  exists a b c d, blank a /\ blank b /\ blank c /\ blank d /\
    text = (a ++ key ++ b ++ "=" ++ c ++ value ++ d)%string.

(** * Positivity of station attributes: positive, +inf or nan. *)
Definition not_below (v : xr) : Prop := v = NaN \/ v = PInf \/ exists r, v = Fin r /\ 0 < r.
Definition positive_station (s : station) : Prop :=
  Forall not_below [st_u_e s; st_delta_m s; st_shape_d s; st_shape_k s; st_shape_eq s; st_u_star s;
    st_nu s; st_delta_d s; st_delta_k s; st_delta_c s; st_re_delta_m s; st_re_delta_d s].

(** The public operations on a station. *)
Inductive station_op :=
| OpX (v : xr) | OpUe (v : xr) | OpDUe (v : xr) | OpDeltaM (v : xr) | OpShapeD (v : xr)
| OpShapeK (v : xr) | OpShapeEq (v : xr) | OpCf (v : xr) | OpCfLt (v : xr) | OpCfExp (v : xr)
| OpBeta (v : xr) | OpUStar (v : xr) | OpNu (v : xr) | OpDeltaD (v : xr) | OpDeltaK (v : xr)
| OpDeltaC (v : xr) | OpReM (v : xr) | OpReD (v : xr)
| OpYPlus (v : list xr) | OpUPlus (v : list xr) | OpY (v : list xr) | OpU (v : list xr)
| OpYC (v : list xr) | OpDefect (v : list xr)
| OpReset (si : bool) (summ stat : string) (rows : list string).
Definition run_op floats junk (o : station_op) (s : station) : station :=
  fst (match o with
  | OpX v => set_x v s | OpUe v => set_u_e v s | OpDUe v => set_du_e v s
  | OpDeltaM v => set_delta_m v s | OpShapeD v => set_shape_d v s | OpShapeK v => set_shape_k v s
  | OpShapeEq v => set_shape_eq v s | OpCf v => set_c_f v s | OpCfLt v => set_c_f_lt v s
  | OpCfExp v => set_c_f_exp v s | OpBeta v => set_beta_eq v s | OpUStar v => set_u_star v s
  | OpNu v => set_nu v s | OpDeltaD v => set_delta_d v s | OpDeltaK v => set_delta_k v s
  | OpDeltaC v => set_delta_c v s | OpReM v => set_re_delta_m v s | OpReD v => set_re_delta_d v s
  | OpYPlus v => set_y_plus v s | OpUPlus v => set_u_plus v s | OpY v => set_y v s
  | OpU v => set_u v s | OpYC v => set_y_c v s | OpDefect v => set_u_defect v s
  | OpReset si a b c => reset floats junk si a b c s
  end).

(** * Whole cases *)

(** The case number says which units its tables are in. *)
Definition units_of (c : string) : units :=
  match c with
  | String a _ => if Ascii.eqb a "1" then SI else US
  | EmptyString => US
  end.

(** The packaged file of case [c] has this first section and these further sections (rows that
    are not empty). *)
Definition case_holds (read_case : string -> option (list string)) (c : string)
  (first : list string) (sections : list (list string)) : Prop :=
  exists lines leading head rows texts secs stexts,
    read_case c = Some lines /\ case_file lines leading head rows secs /\
    lines_of rows texts /\ Forall2 lines_of (map sc_lines secs) stexts /\
    first = rows_kept texts /\ sections = map rows_kept stexts.

(** Station [i] is to be built from the [i]-th summary row, the [i]-th line of the station table
    and the [i]-th profile section.  [rest]: the sections after the smoothed velocities. *)
Definition station_source (summ : list string) (rest : list (list string)) (i : nat)
  (a b : string) (r : list string) : Prop :=
  nth_error summ i = Some a /\
  match rest with
  | [] => b = ""%string /\ r = []
  | [stat] => nth_error stat i = Some b /\ r = []
  | stat :: profiles => nth_error stat i = Some b /\ nth_error profiles i = Some r
  end.

(** The smoothed velocities are these. *)
Definition shows_velocities (m : smooth) (vs : list velocity) : Prop :=
  sm_x m = map (fun v => Fin (v_x v)) vs /\ sm_u_e m = map (fun v => Fin (v_u_e v)) vs /\
  sm_du_e m = map (fun v => Fin (v_du_e v)) vs.

(** * Derived quantities *)

Definition derived (s : station) : Prop :=
  st_delta_d s = (st_shape_d s * st_delta_m s)%xr /\
  st_delta_k s = (st_shape_k s * st_delta_m s)%xr /\
  st_u_star s = (st_u_e s * xsqrt (Fin (1 / 2) * st_c_f s))%xr.
(** The values of a station line against the derived ones. *)
Definition close_to_derived (f : flow) (d : detail) : Prop :=
  Rabs (d_dels d - d_h d * d_theta d) < 5 / 1000 + 2 / 1000 * (d_theta d + 2 / 1000 + d_h d) /\
  Rabs (d_enth d - d_hs d * d_theta d) < 5 / 1000 + 2 / 1000 * (d_theta d + 2 / 1000 + d_hs d) /\
  Rabs (d_us d - d_u_e d * sqrt (f_cf f / 2)) < 5 / 1000 + 6 / 100 * sqrt (f_cf f / 2) /\
  Rabs (d_re_dels d - d_u_e d * d_dels d / d_nu d) < 5 + 6 / 100 * (d_dels d / d_nu d) /\
  Rabs (d_re_theta d - d_u_e d * d_theta d / d_nu d) < 5 + 6 / 100 * (d_theta d / d_nu d).

(** The text has exactly [n] numbers. *)
Definition has_columns (floats : string -> option (list xr)) (t : string) (n : nat) : Prop :=
  exists l, floats t = Some l /\ List.length l = n.
