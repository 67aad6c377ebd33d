(** C90, C91: the formulas of the built-in data fits, and the default fit with scipy's
    CubicSpline behaving as documented (SplineSpec.v). *)
From Coq Require Import Reals List Lra.
From Verif Require Import PyBase PyBaseFacts XDeriv PPolyModel ThwaitesFitsModel SplineSpec
  SplineProofs.
Import ListNotations.
Open Scope R_scope.

(** C90 *)
Theorem data_fits_published : forall cs, cubic_spline_ok cs ->
  (forall l, -9/100 < l -> let z := 25/100 - l in
     shear fit_white (Fin l) = Fin (Rpower (l + 9/100) (62/100)) /\
     shape fit_white (Fin l)
       = Fin (2 + 414/100*z - 835/10*z^2 + 854*z^3 - 3337*z^4 + 4576*z^5)) /\
  (forall l, -1/10 <= l < 0 ->
     shear fit_cb (Fin l) = Fin (22/100 + 1402/1000*l + (18/1000*l)/(107/1000 + l)) /\
     shape fit_cb (Fin l) = Fin (2088/1000 + (731/10000)/(14/100 + l))) /\
  (forall l, 0 <= l <= 1/10 ->
     shear fit_cb (Fin l) = Fin (22/100 + 157/100*l - 18/10*l^2) /\
     shape fit_cb (Fin l) = Fin (261/100 - 375/100*l + 524/100*l^2)) /\
  (forall l, -9/100 <= l ->
     shear fit_drela (Fin l)
       = Fin (220/1000 + 152/100*l - 5*l^3 - 72/1000*l^2/(l + 18/100)^2) /\
     shape fit_drela (Fin l)
       = Fin (261/100 - 41/10*l + 14*l^3 + 56/100*l^2/(l + 18/100)^2)) /\
  (forall k s h, In (k, s, h)
     [(-90, 0, 355); (-88, 15, 349); (-86, 27, 344); (-84, 38, 339); (-80, 56, 330);
      (-76, 72, 322); (-72, 85, 315); (-68, 95, 309); (-64, 104, 304); (-60, 113, 299);
      (-56, 122, 294); (-52, 130, 290); (-48, 138, 287); (-40, 153, 281); (-32, 168, 275);
      (-16, 195, 267); (0, 220, 261); (16, 244, 255); (32, 268, 249); (48, 291, 244);
      (64, 313, 239); (80, 333, 234); (100, 359, 228); (120, 382, 223); (140, 404, 218);
      (200, 463, 207); (250, 500, 200)] ->
     shear (fit_spline cs) (Fin (k/1000)) = Fin (s/1000) /\
     shape (fit_spline cs) (Fin (k/1000)) = Fin (h/100)).
Proof. exact data_fits_formulas. Qed.
Print Assumptions data_fits_published.

(** C91 *)
Theorem default_fit_well_behaved : forall cs, cubic_spline_ok cs ->
  (forall x, exists v, shear (fit_spline cs) (Fin x) = Fin v /\ 0 <= v <= 1/2 /\
     (v = 0 <-> x <= -9/100)) /\
  (forall x, exists v, shape (fit_spline cs) (Fin x) = Fin v /\ 2 <= v <= 355/100) /\
  (forall x y u v, -9/100 <= x -> x < y -> y <= 25/100 ->
     shear (fit_spline cs) (Fin x) = Fin u -> shear (fit_spline cs) (Fin y) = Fin v -> u < v) /\
  (forall x y u v, -9/100 <= x -> x < y -> y <= 25/100 ->
     shape (fit_spline cs) (Fin x) = Fin u -> shape (fit_spline cs) (Fin y) = Fin v -> v < u) /\
  (forall x, -9/100 < x < 25/100 -> exists d,
     shape_p (fit_spline cs) (Fin x) = Fin d /\ d < 0 /\ xderiv (shape (fit_spline cs)) x d).
Proof. intros cs H. exact (proj2 (proj2 (default_fit_lemma cs H))). Qed.
Print Assumptions default_fit_well_behaved.

(** The hypothesis is met by the exact splines of the two tables. *)
Example default_fit_case : cubic_spline_ok table_splines /\
  exists v, shear (fit_spline table_splines) (Fin (1/100)) = Fin v /\ 0 < v <= 1/2.
Proof.
  split; [exact table_splines_ok|].
  destruct (proj1 (default_fit_well_behaved _ table_splines_ok) (1/100)) as [v [E [B Z]]].
  exists v. split; [exact E|]. destruct (Req_EM_T v 0) as [V|V]; [apply Z in V; lra|lra].
Qed.
