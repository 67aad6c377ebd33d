(** Vocabulary for C166: a case file as a list of entries, one per station. *)
From Coq Require Import Reals List String ZArith.
From Verif Require Import PyBase StanfordModel StanfordSpec.
Import ListNotations.
Open Scope R_scope.

(** One station: its row of the flow table, its line of the station table if there is one, and the
    samples of its profile. *)
Record entry := { e_flow : flow; e_detail : option detail; e_profile : list profile }.

(** The texts hold the entry. *)
Definition entry_printed (floats : string -> option (list xr)) (u : units)
  (a b : string) (r : list string) (e : entry) : Prop :=
  prints floats a (summary_columns u (e_flow e)) /\ 0 < f_cf (e_flow e) /\
  match e_detail e with
  | None => b = ""%string /\ r = [] /\ e_profile e = []
  | Some d => b <> ""%string /\ prints floats b (detail_columns u d) /\
              Forall2 (fun t p => prints floats t (profile_columns u p)) r (e_profile e)
  end.

(** The file's stations are these entries, in this order and no others. *)
Definition file_entries (floats : string -> option (list xr)) (u : units)
  (summ : list string) (rest : list (list string)) (es : list entry) : Prop :=
  forall i, match nth_error es i with
            | Some e => exists a b r, station_source summ rest i a b r /\ entry_printed floats u a b r e
            | None => forall a b r, ~ station_source summ rest i a b r
            end.

(** The number of an entry that is in the station line, or else in the flow table. *)
Definition either (fd : detail -> R) (ff : flow -> R) (e : entry) : xr :=
  Fin (match e_detail e with Some d => fd d | None => ff (e_flow e) end).
(** The number that only the flow table has. *)
Definition table (ff : flow -> R) (e : entry) : xr := Fin (ff (e_flow e)).
(** The number that only the station line has: inf without one. *)
Definition line (fd : detail -> R) (e : entry) : xr :=
  match e_detail e with Some d => Fin (fd d) | None => PInf end.
(** The profile, and the velocity at a sample. *)
Definition samples (fp : profile -> R) (e : entry) : list xr := map (fun p => Fin (fp p)) (e_profile e).
Definition sample_velocity (e : entry) (p : profile) : R :=
  match e_detail e with Some d => d_u_e d * p_ratio p | None => 0 end.
Definition velocities (e : entry) : list xr := map (fun p => Fin (sample_velocity e p)) (e_profile e).

(** [k] denotes position [i] of [n], counted from the start or, if negative, from the end. *)
Definition denotes (k : Z) (n i : nat) : Prop :=
  (i < n)%nat /\ (k = Z.of_nat i \/ k = (Z.of_nat i - Z.of_nat n)%Z).
