(** Model of the Thwaites data fits (ibl/thwaites_method.py:503-695). *)
From Coq Require Import Reals List String.
From Verif Require Import PyBase.
Import ListNotations.
Open Scope R_scope.

(** Squares and cubes [lam**2], [lam**3] (numpy computes them as products). *)
Definition xsq (a : xr) : xr := (a * a)%xr.
Definition xcube (a : xr) : xr := (a * a * a)%xr.

(** The derivative slot of a fit: a function, or the finite-difference closure of
    ibl/thwaites_method.py:141-146, which looks up [self._model.shape] when called. *)
Inductive shape_p_src :=
| SPFun (f : xr -> xr)
| SPFd.

(** ibl/thwaites_method.py:503-514 [_ThwaitesFunctions.__init__]. *)
Record fit := {
  fit_name : string;
  fit_shear : xr -> xr;
  fit_shape : xr -> xr;
  fit_shape_p : shape_p_src;
  fit_lo : xr;
  fit_hi : xr }.

(** ibl/thwaites_method.py:539-551 [_check_range] on an array: the test for the upper end
    is only reached when no element is below the lower end ([elif]). *)
Definition check_range_arr (lo hi : xr) (lam : list xr) : list xr :=
  if existsb (fun v => xltb v lo) lam then map (fun v => if xltb v lo then lo else v) lam
  else if existsb (fun v => xltb hi v) lam then map (fun v => if xltb hi v then hi else v) lam
  else lam.

(** The same function on a scalar (a 0-d array has one element). *)
Definition check_range (lo hi lam : xr) : xr :=
  if xltb lam lo then lo else if xltb hi lam then hi else lam.

(** ibl/thwaites_method.py:519-521 [shape]. *)
Definition shape (m : fit) (lam : xr) : xr := fit_shape m (check_range (fit_lo m) (fit_hi m) lam).

(** The finite-difference closure ibl/thwaites_method.py:141-146 ([dx = 1e-5]). *)
Definition shape_fd (m : fit) (xo : xr) : xr :=
  let dx := Fin (1/100000) in
  (((shape m (xo - Fin 2 * dx) - shape m (xo + Fin 2 * dx)) / Fin 12
    - Fin 2 * (shape m (xo - dx) - shape m (xo + dx)) / Fin 3) / dx)%xr.

(** ibl/thwaites_method.py:523-525 [shape_p]. *)
Definition shape_p (m : fit) (lam : xr) : xr :=
  let lam' := check_range (fit_lo m) (fit_hi m) lam in
  match fit_shape_p m with SPFun g => g lam' | SPFd => shape_fd m lam' end.

(** ibl/thwaites_method.py:527-529 [shear]. *)
Definition shear (m : fit) (lam : xr) : xr := fit_shear m (check_range (fit_lo m) (fit_hi m) lam).

(** ibl/thwaites_method.py:531-533 [f]: note that the factor [lam] is not clamped. *)
Definition fit_f (m : fit) (lam : xr) : xr :=
  (Fin 2 * (shear m lam - lam * (shape m lam + Fin 2)))%xr.

(** The same methods on arrays (the fit functions act element by element; the
    finite-difference closure exists only in fits with infinite range, whose [shape] does). *)
Definition shape_arr (m : fit) (lam : list xr) : list xr :=
  map (fit_shape m) (check_range_arr (fit_lo m) (fit_hi m) lam).
Definition shear_arr (m : fit) (lam : list xr) : list xr :=
  map (fit_shear m) (check_range_arr (fit_lo m) (fit_hi m) lam).
Definition shape_p_arr (m : fit) (lam : list xr) : list xr :=
  let lam' := check_range_arr (fit_lo m) (fit_hi m) lam in
  match fit_shape_p m with SPFun g => map g lam' | SPFd => map (shape_fd m) lam' end.

(** ibl/thwaites_method.py:554-569 [_ThwaitesFunctionsWhite]. *)
Definition white_shear (lam : xr) : xr := xpow (lam + Fin (9/100))%xr (Fin (62/100)).
Definition white_shape (lam : xr) : xr :=
  let z := (Fin (25/100) - lam)%xr in
  (Fin 2 + z*(Fin (414/100) + z*(Fin (-835/10) + z*(Fin 854 + z*(Fin (-3337) + z*Fin 4576)))))%xr.
Definition white_shape_p (lam : xr) : xr :=
  let z := (Fin (25/100) - lam)%xr in
  (- (Fin (414/100) + z*(Fin (-2*(835/10)) + z*(Fin (3*854) + z*(Fin (-4*3337) + z*Fin 5*Fin 4576)))))%xr.
Definition fit_white : fit :=
  {| fit_name := "White"; fit_shear := white_shear; fit_shape := white_shape;
     fit_shape_p := SPFun white_shape_p; fit_lo := Fin (-9/100); fit_hi := PInf |}.

(** np.piecewise(lam, [lam < 0, lam >= 0], [f, g]): 0 where no condition holds (nan). *)
Definition piecewise0 (f g : xr -> xr) (lam : xr) : xr :=
  if xleb (Fin 0) lam then g lam else if xltb lam (Fin 0) then f lam else Fin 0.

(** ibl/thwaites_method.py:572-597 [_ThwaitesFunctionsCebeciBradshaw]. *)
Definition cb_shear : xr -> xr :=
  piecewise0
    (fun lam => Fin (22/100) + Fin (1402/1000)*lam + Fin (18/1000)*lam/(Fin (107/1000) + lam))%xr
    (fun lam => Fin (22/100) + Fin (157/100)*lam - Fin (18/10)*xsq lam)%xr.
Definition cb_shape : xr -> xr :=
  piecewise0
    (fun lam => Fin (2088/1000) + Fin (731/10000)/(Fin (14/100) + lam))%xr
    (fun lam => Fin (261/100) - Fin (375/100)*lam + Fin (524/100)*xsq lam)%xr.
Definition cb_shape_p : xr -> xr :=
  piecewise0
    (fun lam => Fin (-731/10000)/xsq (Fin (14/100) + lam))%xr
    (fun lam => Fin (-375/100) + Fin (2*(524/100))*lam)%xr.
Definition fit_cb : fit :=
  {| fit_name := "Cebeci and Bradshaw"; fit_shear := cb_shear; fit_shape := cb_shape;
     fit_shape_p := SPFun cb_shape_p; fit_lo := Fin (-1/10); fit_hi := Fin (1/10) |}.

(** ibl/thwaites_method.py:600-613 [_ThwaitesFunctionsDrela]. *)
Definition drela_shear (lam : xr) : xr :=
  (Fin (220/1000) + Fin (152/100)*lam - Fin 5*xcube lam
   - Fin (72/1000)*xsq lam/xsq (lam + Fin (18/100)))%xr.
Definition drela_shape (lam : xr) : xr :=
  (Fin (261/100) - Fin (41/10)*lam + Fin 14*xcube lam
   + Fin (56/100)*xsq lam/xsq (lam + Fin (18/100)))%xr.
Definition drela_shape_p (lam : xr) : xr :=
  (Fin (-41/10) + Fin 42*xsq lam + Fin (2016/10000)*lam/xcube (lam + Fin (18/100)))%xr.
Definition fit_drela : fit :=
  {| fit_name := "Drela"; fit_shear := drela_shear; fit_shape := drela_shape;
     fit_shape_p := SPFun drela_shape_p; fit_lo := Fin (-9/100); fit_hi := PInf |}.

(** ibl/thwaites_method.py:616-640, the tables behind the default fit. *)
Definition tab_lambda : list R := map (fun z => IZR z / 1000)
  [-90; -88; -86; -84; -80; -76; -72; -68; -64; -60; -56; -52; -48; -40; -32; -16; 0; 16;
   32; 48; 64; 80; 100; 120; 140; 200; 250]%Z.
Definition tab_shear : list R := map (fun z => IZR z / 1000)
  [0; 15; 27; 38; 56; 72; 85; 95; 104; 113; 122; 130; 138; 153; 168; 195; 220; 244; 268;
   291; 313; 333; 359; 382; 404; 463; 500]%Z.
Definition tab_shape : list R := map (fun z => IZR z / 100)
  [355; 349; 344; 339; 330; 322; 315; 309; 304; 299; 294; 290; 287; 281; 275; 267; 261;
   255; 249; 244; 239; 234; 228; 223; 218; 207; 200]%Z.

(** ibl/thwaites_method.py:667-675: scipy's CubicSpline is a parameter: it takes a table and
    returns the interpolant and its derivative. *)
Definition fit_spline (cubic_spline : list R -> list R -> (xr -> xr) * (xr -> xr)) : fit :=
  {| fit_name := "Thwaites Splines";
     fit_shear := fst (cubic_spline tab_lambda tab_shear);
     fit_shape := fst (cubic_spline tab_lambda tab_shape);
     fit_shape_p := SPFun (snd (cubic_spline tab_lambda tab_shape));
     fit_lo := Fin (-90/1000); fit_hi := Fin (250/1000) |}.

(** ibl/thwaites_method.py:125-135 and 138-155: user supplied fits. *)
Definition fit_custom3 (s h hp : xr -> xr) : fit :=
  {| fit_name := "Custom"; fit_shear := s; fit_shape := h; fit_shape_p := SPFun hp;
     fit_lo := NInf; fit_hi := PInf |}.
Definition fit_custom2 (s h : xr -> xr) : fit :=
  {| fit_name := "Custom"; fit_shear := s; fit_shape := h; fit_shape_p := SPFd;
     fit_lo := NInf; fit_hi := PInf |}.
