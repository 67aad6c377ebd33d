(** scipy.interpolate.PchipInterpolator on one-dimensional data, the interpolation that
    [IBLMethod.set_velocity] uses for velocities given by points (ibl/ibl_method.py:474-476,
    509-511).  The routine belongs to scipy, not to this repository; its documented algorithm
    (Fritsch and Butland's weighted harmonic mean, three-point formula with shape preservation
    at the two ends, cubic Hermite pieces) is written down here over exact reals. *)
From Coq Require Import Reals List.
From Verif Require Import PyBase PPolyModel CoreModel.
Import ListNotations.
Open Scope R_scope.

(** np.sign, as -1, 0 or 1. *)
Definition np_sign (r : R) : R := if Rlt_dec 0 r then 1 else if Rlt_dec r 0 then -1 else 0.

(** Secant slope between two points. *)
Definition secant (p q : R * R) : R := (snd q - snd p) / (fst q - fst p).

(** PchipInterpolator._edge_case(h0, h1, m0, m1). *)
Definition pchip_edge (h0 h1 m0 m1 : R) : R :=
  let d := ((2 * h0 + h1) * m0 - h0 * m1) / (h0 + h1) in
  if negb (Reqb (np_sign d) (np_sign m0)) then 0
  else if andb (negb (Reqb (np_sign m0) (np_sign m1))) (Rltb (3 * Rabs m0) (Rabs d))
  then 3 * m0 else d.

(** PchipInterpolator._find_derivatives: slope at an interior point. *)
Definition pchip_inner (p0 p1 p2 : R * R) : R :=
  let h0 := fst p1 - fst p0 in
  let h1 := fst p2 - fst p1 in
  let m0 := secant p0 p1 in
  let m1 := secant p1 p2 in
  if orb (negb (Reqb (np_sign m1) (np_sign m0))) (orb (Reqb m1 0) (Reqb m0 0)) then 0
  else
    let w1 := 2 * h1 + h0 in
    let w2 := h1 + 2 * h0 in
    1 / ((w1 / m0 + w2 / m1) / (w1 + w2)).

(** Slopes at the point [p1] ... up to the last, [p0] being the point before. *)
Fixpoint pchip_rest (p0 p1 : R * R) (l : list (R * R)) : list R :=
  match l with
  | [] => []
  | p2 :: l' =>
      pchip_inner p0 p1 p2 ::
      match l' with
      | [] => [pchip_edge (fst p2 - fst p1) (fst p1 - fst p0) (secant p1 p2) (secant p0 p1)]
      | _ => pchip_rest p1 p2 l'
      end
  end.

(** PchipInterpolator._find_derivatives: all slopes. *)
Definition pchip_slopes (l : list (R * R)) : list R :=
  match l with
  | [p0; p1] => [secant p0 p1; secant p0 p1]
  | p0 :: p1 :: ((p2 :: _) as r) =>
      pchip_edge (fst p1 - fst p0) (fst p2 - fst p1) (secant p0 p1) (secant p1 p2)
      :: pchip_rest p0 p1 r
  | _ => []
  end.

(** CubicHermiteSpline: the coefficients on one interval. *)
Definition hermite_col (p q : R * R) (d0 d1 : R) : list R :=
  let h := fst q - fst p in
  let m := secant p q in
  let t := (d0 + d1 - 2 * m) / h in
  [t / h; (m - d0) / h - t; d0; snd p].
Fixpoint hermite_cols (l : list (R * R)) (ds : list R) : list (list R) :=
  match l, ds with
  | p :: l', d0 :: ds' =>
      match l', ds' with
      | q :: _, d1 :: _ => hermite_col p q d0 d1 :: hermite_cols l' ds'
      | _, _ => []
      end
  | _, _ => []
  end.

Fixpoint strictly_increasing (l : list R) : bool :=
  match l with
  | a :: ((b :: _) as r) => andb (Rltb a b) (strictly_increasing r)
  | _ => true
  end.

(** PchipInterpolator(x, y) for lists of numbers: ValueError unless there are two points or
    more, as many abscissas as ordinates, and the abscissas increase strictly. *)
Definition pchip_fit (xs ys : list R) : res ppoly :=
  if andb (Nat.eqb (length xs) (length ys))
          (andb (Nat.leb 2 (length xs)) (strictly_increasing xs))
  then let l := combine xs ys in
       Ok {| pp_x := xs; pp_c := hermite_cols l (pchip_slopes l) |}
  else Err ValueError.

(** The routine as [set_velocity] calls it.  Simplification: for arrays of other dimensions,
    where scipy interpolates along the first axis or raises, an unspecified exception. *)
Definition pchip_scipy (x y : ndarray) : res ppoly :=
  match nd_shape x, nd_shape y with
  | [_], [_] => pchip_fit (nd_data x) (nd_data y)
  | _, _ => Err OtherError
  end.
