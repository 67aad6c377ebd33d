(** C84: making a new data object for a case of the 1968 Stanford conference. *)
From Coq Require Import Reals List String.
From Verif Require Import PyBase PyText StanfordModel StanfordSpec StanfordProofs StanfordProps.
Import ListNotations.

(** C84: assigning the case on any object and making a new object for it succeed with the same object, or fail with the
    same exception. *)
Theorem case_change_as_constructor : forall floats float1 read_case junk o c,
  (forall o', set_case floats float1 read_case junk o c = (o', Ok tt) <-> new_case floats float1 read_case junk (Some c) = Ok o') /\
  (forall e, snd (set_case floats float1 read_case junk o c) = Err e <-> new_case floats float1 read_case junk (Some c) = Err e).
Proof.
  intros floats float1 read_case junk o c. pose proof (case_change_like_new floats float1 read_case junk o casedata0 c) as H. cbv zeta in H.
  unfold new_case. destruct (set_case floats float1 read_case junk o c) as [o1 r1].
  destruct (set_case floats float1 read_case junk casedata0 c) as [o2 r2]. cbn [fst snd] in *. destruct H as (E & _ & _ & _ & S). subst r2.
  destruct r1 as [[]|e1].
  - specialize (S eq_refl). subst o2. split; [intros o'; split; intros Q; inversion Q; reflexivity|intros e; split; intros Q; discriminate Q].
  - split; [intros o'; split; intros Q; discriminate Q|intros e; split; intros Q; inversion Q; reflexivity].
Qed.
Print Assumptions case_change_as_constructor.

(** C84: without a case, and for the empty name, the new object is empty. *)
Theorem new_case_empty : forall floats float1 read_case junk,
  exists o, new_case floats float1 read_case junk None = Ok o /\ new_case floats float1 read_case junk (Some ""%string) = Ok o /\
    cd_case o = ""%string /\ cd_nu_ref o = PInf /\ cd_smooth o = None /\ cd_station o = [].
Proof. intros. eexists. repeat split; reflexivity. Qed.
Print Assumptions new_case_empty.

Example new_case_ex : exists o, new_case py_floats ex_float1 ex_read ex_junk (Some "1100"%string) = Ok o /\ station_count o = 2%nat.
Proof.
  destruct case_change_ex as (o1 & _ & E & N & _). exists o1. split; [|exact N].
  apply (proj1 (case_change_as_constructor py_floats ex_float1 ex_read ex_junk casedata0 "1100"%string)). exact E.
Qed.
