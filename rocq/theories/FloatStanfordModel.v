(** The station tables of the 1968 Stanford data in binary64 arithmetic, as Python executes them
    (C157).  A row of a table is the list of floats that [float] returned for its words.
    StanfordModel has the same code with exact numbers, and the text handling. *)
From Coq Require Import ZArith List.
From Flocq Require Import Core IEEE754.BinarySingleNaN.
From Verif Require Import PyBase FloatModel FloatXFoilModel FloatThwaitesModel.
Import ListNotations.
Open Scope b64_scope.

(** Python's [<=] on floats and np.abs. *)
Definition fle (x y : b64) : bool := Bleb x y.
Definition fabs (x : b64) : b64 := Babs x.
(** Python's [/] on floats raises on a zero divisor. *)
Definition py_div64 (x y : b64) : res b64 := if feq y b_0 then Err ZeroDivisionError else Ok (x / y).
Definition f_inf : b64 := B754_infinity false.

(** The literals. *)
Definition b_0_3048 : b64 := @B754_finite 53 1024 false 5490788665690109 (-54) eq_refl.
Definition b_1e_2 : b64 := @B754_finite 53 1024 false 5764607523034235 (-59) eq_refl.
Definition b_0_5 : b64 := @B754_finite 53 1024 false 4503599627370496 (-53) eq_refl.
Definition b_2e_3 : b64 := @B754_finite 53 1024 false 4611686018427388 (-61) eq_refl.
Definition b_6e_2 : b64 := @B754_finite 53 1024 false 8646911284551352 (-57) eq_refl.
Definition b_5e_3 : b64 := @B754_finite 53 1024 false 5764607523034235 (-60) eq_refl.

(** ibl/reference/_stanford_1968_station.py:14-17, evaluated as written. *)
Definition foot64 : b64 := b_0_3048.
Definition meter_per_foot64 : b64 := b_1 / foot64.
Definition meter_per_inch64 : b64 := b_12 * meter_per_foot64.
Definition inch64 : b64 := b_1 / meter_per_inch64.

(** The scalars of a station. *)
Record station64 := {
  t_x : b64; t_u_e : b64; t_du_e : b64; t_delta_m : b64; t_shape_d : b64; t_shape_k : b64;
  t_shape_eq : b64; t_c_f : b64; t_c_f_lt : b64; t_c_f_exp : b64; t_beta_eq : b64; t_u_star : b64;
  t_nu : b64; t_delta_d : b64; t_delta_k : b64; t_delta_c : b64; t_re_delta_m : b64; t_re_delta_d : b64 }.

(** ibl/reference/_stanford_1968_station.py:86-323: a setter that refuses values <= 0. *)
Definition positive64 (v : b64) : res b64 := if fle v b_0 then Err ValueError else Ok v.

(** ibl/reference/_stanford_1968_station.py:503-509, 567-590, 692-694: the conversions. *)
Definition length64 (si : bool) (v : b64) : b64 := if si then v else v * foot64.
Definition thick64 (si : bool) (v : b64) : b64 := if si then v * b_1e_2 else v * inch64.
(** [sq] stands for [FOOT_PER_METER**2], which the C library computes. *)
Definition visc64 (sq : b64 -> b64) (si : bool) (v : b64) : b64 := if si then v * b_1e_4 else v * sq foot64.

(** ibl/reference/_stanford_1968_station.py:466-527 [_reset_summary_data]; what belongs to the station
    line stays inf. *)
Definition summary64 (si : bool) (row : list b64) : res station64 :=
  match row with
  | [x; ui; dui; theta; h; hs; g; cf; cflt; cfe; beta] =>
      bind (positive64 (length64 si ui)) (fun ui =>
      bind (positive64 (thick64 si theta)) (fun theta =>
      bind (positive64 h) (fun h =>
      bind (positive64 hs) (fun hs =>
      bind (positive64 g) (fun g =>
      bind (positive64 (h * theta)) (fun dels =>
      bind (positive64 (hs * theta)) (fun enth =>
      bind (positive64 (ui * fsqrt (b_0_5 * cf))) (fun us =>
      Ok {| t_x := length64 si x; t_u_e := ui; t_du_e := dui; t_delta_m := theta; t_shape_d := h; t_shape_k := hs;
            t_shape_eq := g; t_c_f := cf; t_c_f_lt := cflt; t_c_f_exp := cfe; t_beta_eq := beta; t_u_star := us;
            t_nu := f_inf; t_delta_d := dels; t_delta_k := enth; t_delta_c := f_inf;
            t_re_delta_m := f_inf; t_re_delta_d := f_inf |}))))))))
  | _ => Err ValueError
  end.

(** abs(a - b) >= t and abs(a - b) > t raise. *)
Definition agree64 (t a b : b64) : res unit := if fle t (fabs (a - b)) then Err ValueError else Ok tt.
Definition not_beyond64 (t a b : b64) : res unit := if flt t (fabs (a - b)) then Err ValueError else Ok tt.

(** ibl/reference/_stanford_1968_station.py:529-652 [_reset_station_summary] after [summary64], for a
    non-empty line.  Lines 557-559 compute the derived values again, with the same results. *)
Definition detail64 (sq : b64 -> b64) (si : bool) (row : list b64) (s : station64) : res station64 :=
  match row with
  | [x; us; ui; v; theta; dels; enth; clth; h; g; hs; rtheta; rdels] =>
      let v := visc64 sq si v in
      let x := length64 si x in
      let us := length64 si us in
      let ui := length64 si ui in
      let theta := thick64 si theta in
      let dels := thick64 si dels in
      let enth := thick64 si enth in
      let clth := thick64 si clth in
      bind (agree64 b_2e_3 x (t_x s)) (fun _ =>
      bind (agree64 b_6e_2 ui (t_u_e s)) (fun _ =>
      bind (agree64 b_2e_3 theta (t_delta_m s)) (fun _ =>
      bind (agree64 b_2e_3 h (t_shape_d s)) (fun _ =>
      bind (agree64 b_2e_3 hs (t_shape_k s)) (fun _ =>
      bind (agree64 b_2e_3 g (t_shape_eq s)) (fun _ =>
      bind (agree64 b_5e_3 dels (t_shape_d s * t_delta_m s)) (fun _ =>
      bind (agree64 b_5e_3 enth (t_shape_k s * t_delta_m s)) (fun _ =>
      bind (py_div64 (t_u_e s * dels) v) (fun q =>
      bind (agree64 b_5 rdels q) (fun _ =>
      bind (py_div64 (t_u_e s * theta) v) (fun q =>
      bind (agree64 b_5 rtheta q) (fun _ =>
      bind (agree64 b_5e_3 us (t_u_e s * fsqrt (b_0_5 * t_c_f s))) (fun _ =>
      bind (positive64 us) (fun us =>
      bind (positive64 ui) (fun ui =>
      bind (positive64 v) (fun v =>
      bind (positive64 theta) (fun theta =>
      bind (positive64 dels) (fun dels =>
      bind (positive64 enth) (fun enth =>
      bind (positive64 clth) (fun clth =>
      bind (positive64 h) (fun h =>
      bind (positive64 g) (fun g =>
      bind (positive64 hs) (fun hs =>
      bind (positive64 rtheta) (fun rtheta =>
      bind (positive64 rdels) (fun rdels =>
      Ok {| t_x := x; t_u_e := ui; t_du_e := t_du_e s; t_delta_m := theta; t_shape_d := h; t_shape_k := hs;
            t_shape_eq := g; t_c_f := t_c_f s; t_c_f_lt := t_c_f_lt s; t_c_f_exp := t_c_f_exp s;
            t_beta_eq := t_beta_eq s; t_u_star := us; t_nu := v; t_delta_d := dels; t_delta_k := enth;
            t_delta_c := clth; t_re_delta_m := rtheta; t_re_delta_d := rdels |})))))))))))))))))))))))))
  | _ => Err ValueError
  end.

(** A station with a line of its own. *)
Definition station_of64 (sq : b64 -> b64) (si : bool) (summary line : list b64) : res station64 :=
  bind (summary64 si summary) (fun s => detail64 sq si line s).

(** y+, u+, y, u, Clauser coordinate and defect of a sample. *)
Record sample64 := { a_yplus : b64; a_uplus : b64; a_y : b64; a_u : b64; a_yc : b64; a_defect : b64 }.

(** ibl/reference/_stanford_1968_station.py:683-721: one row of the profile.  u_star, nu and delta_c are
    positive, so the divisions do not raise. *)
Definition sample_of64 (si : bool) (row : list b64) (s : station64) : res sample64 :=
  match row with
  | [yplus; uplus; y; uoui; ycd; udef] =>
      let u := t_u_e s * uoui in
      let y := thick64 si y in
      bind (not_beyond64 b_1 yplus (y * t_u_star s / t_nu s)) (fun _ =>
      bind (not_beyond64 b_0_5 ycd (y / t_delta_c s)) (fun _ =>
      bind (not_beyond64 b_0_5 uplus (u / t_u_star s)) (fun _ =>
      bind (not_beyond64 b_0_5 udef ((t_u_e s - u) / t_u_star s)) (fun _ =>
      Ok {| a_yplus := yplus; a_uplus := uplus; a_y := y; a_u := u; a_yc := ycd; a_defect := udef |}))))
  | _ => Err ValueError
  end.
