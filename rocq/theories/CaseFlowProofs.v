(** C167: proofs. *)
From Coq Require Import Reals List String Bool ZArith Lra Lia Sorted.
From Coquelicot Require Import Coquelicot.
From Verif Require Import PyBase PyBaseFacts FiniteDiffModel PPolyModel PchipModel PchipProofs
  InitialConditionModel CoreModel CoreSpec WorkflowModel WorkflowSpec WorkflowProofs
  XFoilSpec XFoilFlowSpec XFoilFlowProofs.
From Verif Require CoreProofs StanfordModel StanfordSpec StanfordProofs StanfordLoadProofs StanfordCaseProofs
  StanfordHistoryProofs CaseQueryModel.
Import ListNotations.
Open Scope R_scope.

Section Loaded.
Import StanfordModel StanfordSpec StanfordProofs StanfordCaseProofs StanfordHistoryProofs.

(** Every number of these columns of a loaded case is positive, if it is finite. *)
Lemma loaded_positive floats float1 read_case junk o c o' first summ smoo rest : c <> ""%string ->
  case_holds read_case c first (summ :: smoo :: rest) ->
  set_case floats float1 read_case junk o c = (o', Ok tt) ->
  forall q, In q [st_u_e; st_delta_m; st_shape_d] -> forall v, In (Fin v) (map q (cd_station o')) -> 0 < v.
Proof.
  intros Hc Hh H q Hq v Hv. apply in_map_iff in Hv. destruct Hv as (s & Es & Hs).
  apply In_nth_error in Hs. destruct Hs as [i Hi].
  apply (case_pairing _ _ _ _ o c o' first summ smoo rest Hc Hh H) in Hi.
  destruct Hi as (a & b & r & _ & Hb).
  pose proof (positive_new floats junk _ a b r s Hb) as P. unfold positive_station in P.
  rewrite List.Forall_forall in P.
  assert (NB : not_below (q s)).
  { apply P. destruct Hq as [<-|[<-|[<-|[]]]]; cbn; auto. }
  rewrite Es in NB. destruct NB as [N|[N|(r' & N & Pr)]]; try discriminate. injection N as ->. exact Pr.
Qed.
End Loaded.

Lemma least (us : list R) : us <> [] -> exists lo, In lo us /\ forall u, In u us -> lo <= u.
Proof.
  induction us as [|a us IH]; [contradiction|]. intros _. destruct us as [|b us].
  - exists a. split; [left; reflexivity|]. intros u [<-|[]]. lra.
  - destruct IH as (lo & Hin & Hlo); [discriminate|]. destruct (Rle_dec a lo).
    + exists a. split; [left; reflexivity|]. intros u [<-|Hu]; [lra|]. specialize (Hlo u Hu). lra.
    + exists lo. split; [right; exact Hin|]. intros u [<-|Hu]; [lra|exact (Hlo u Hu)].
Qed.
Lemma greatest (us : list R) : us <> [] -> exists hi, forall u, In u us -> u <= hi.
Proof.
  intros _. induction us as [|a us [hi H]]; [exists 0; intros u []|].
  exists (Rmax a hi). intros u [<-|Hu]; [apply Rmax_l|]. apply Rle_trans with hi; [exact (H u Hu)|apply Rmax_r].
Qed.

Lemma usable_of_sorted xs us : List.length xs = List.length us -> (2 <= List.length xs)%nat -> Sorted Rlt xs ->
  usable_points xs us.
Proof. intros H1 H2 H3. split; [exact H1|]. split; [exact H2|]. exact (sorted_adjacent xs H3). Qed.
Lemma sorted_of_usable xs us : usable_points xs us -> Sorted Rlt xs.
Proof.
  intros (_ & _ & H). induction xs as [|x xs IH]; [constructor|]. constructor.
  - apply IH. intros i. exact (H (S i)).
  - destruct xs as [|y xs]; constructor. exact (H 0%nat x y eq_refl eq_refl).
Qed.

Lemma combine_through m xs us U dU d2U : List.length xs = List.length us -> answers m U dU d2U -> follows U xs us ->
  (forall lo hi, (forall u, In u us -> lo <= u <= hi) -> forall x, hd 0 xs <= x <= last xs 0 -> lo <= U x <= hi) ->
  flows_through m (combine xs us).
Proof.
  intros L A F B.
  assert (E1 : map fst (combine xs us) = xs).
  { clear -L. revert us L. induction xs as [|x xs IH]; intros [|u us] L; try discriminate; [reflexivity|].
    cbn. f_equal. apply IH. injection L. auto. }
  assert (E2 : map snd (combine xs us) = us).
  { clear -L. revert us L. induction xs as [|x xs IH]; intros [|u us] L; try discriminate; [reflexivity|].
    cbn. f_equal. apply IH. injection L. auto. }
  split.
  - intros x u Hin. apply In_nth_error in Hin. destruct Hin as [i Hi].
    rewrite (proj1 (A x)). f_equal. apply (proj1 F i).
    + rewrite <- E1 at 1. exact (map_nth_error fst i _ Hi).
    + rewrite <- E2 at 1. exact (map_nth_error snd i _ Hi).
  - intros lo hi x Hb Hx. rewrite E1 in Hx. exists (U x). split; [apply A|]. apply B; [|exact Hx].
    intros u Hu. rewrite <- E2 in Hu. apply in_map_iff in Hu. destruct Hu as ([y v] & <- & Hy). exact (Hb y v Hy).
Qed.

(** The three assignments on an object made by the constructor. *)
Lemma head_conditions m d0 h0 : m_ic m = new_manual PInf PInf (Fin 0) -> 0 < d0 -> 0 < h0 ->
  exists m1 m2, set_initial_delta_m m (Fin d0) = (m1, Ok tt) /\ set_initial_shape_d m1 (Fin h0) = (m2, Ok tt) /\
    m2 = set_ic m (m_ic m2) /\ get_initial_delta_m m2 = Ok (Fin d0) /\ get_initial_shape_d m2 = Ok (Fin h0).
Proof.
  intros E Hd Hh. eexists. eexists.
  split. { unfold set_initial_delta_m. cbn [xleb]. rewrite Rleb_false by lra. reflexivity. }
  rewrite E. cbn [ic_assign_del_m new_manual ic_body_of ic_du ic_nu].
  split. { unfold set_initial_shape_d. cbn [xleb]. rewrite Rleb_false by lra. reflexivity. }
  split; [destruct m; reflexivity|]. split; [reflexivity|].
  unfold get_initial_shape_d. cbn [m_ic set_ic ic_assign_del_d ic_body_of ic_shape_d].
  rewrite xmul_fin, py_div_fin by lra. f_equal. f_equal. field. lra.
Qed.

Definition blank_head (nu : R) : meth :=
  {| m_kind := Head; m_nu := Fin nu; m_u := None; m_du := None; m_d2u := None;
     m_ic := {| ic_du := Fin 0; ic_nu := Fin nu; ic_body_of := FSStag |}; m_fit := None; m_events := []; m_sol := None |}.
Definition made_head (m : meth) (crit : xr) : meth :=
  set_shape_d_critical (set_initial_condition m (new_manual PInf PInf (Fin 0))) crit.

Lemma head_created u du crit nu m e : 0 < nu -> u <> PNone ->
  set_velocity pchip_scipy (blank_head nu) u du PNone = (m, e) ->
  new_head pchip_scipy (Fin nu) u du PNone crit = match e with Ok _ => Ok (made_head m crit) | Err x => Err x end.
Proof.
  intros Hn Hu Hv. unfold new_head, new_base, new_fs, ic_set_nu. cbn [xleb]. rewrite Rleb_false by lra.
  cbn [ic_du ic_body_of]. change {| m_kind := Head; m_nu := Fin nu; m_u := None; m_du := None; m_d2u := None;
     m_ic := {| ic_du := Fin 0; ic_nu := Fin nu; ic_body_of := FSStag |}; m_fit := None; m_events := []; m_sol := None |}
    with (blank_head nu).
  destruct u; [contradiction|..]; rewrite Hv; destruct e; reflexivity.
Qed.
Lemma head_refused u du crit nu : nu <= 0 -> new_head pchip_scipy (Fin nu) u du PNone crit = Err ValueError.
Proof.
  intros Hn. unfold new_head, new_base, new_fs, ic_set_nu. cbn [xleb]. rewrite Rleb_true by lra. reflexivity.
Qed.

Section Flow.
Import StanfordModel StanfordSpec CaseQueryModel.
Variables (floats : string -> option (list xr)) (float1 : string -> option xr)
  (read_case : string -> option (list string)) (junk : nat -> xr).

Lemma case_flow_lemma o c o' first summ smoo rest xs us d0 ds h0 hs nu crit : c <> ""%string ->
  case_holds read_case c first (summ :: smoo :: rest) ->
  set_case floats float1 read_case junk o c = (o', Ok tt) ->
  case_x o' = map Fin xs -> case_u_e o' = map Fin us -> case_delta_m o' = map Fin (d0 :: ds) ->
  case_shape_d o' = map Fin (h0 :: hs) -> cd_nu_ref o' = Fin nu -> (2 <= station_count o')%nat ->
  (0 < nu -> Sorted Rlt xs ->
   exists m m1 m2, new_head pchip_scipy (Fin nu) (PTup [PArr (vec xs); PArr (vec us)]) PNone PNone crit = Ok m /\
     set_initial_delta_m m (Fin d0) = (m1, Ok tt) /\ set_initial_shape_d m1 (Fin h0) = (m2, Ok tt) /\
     m_nu m2 = Fin nu /\ get_initial_delta_m m2 = Ok (Fin d0) /\ get_initial_shape_d m2 = Ok (Fin h0) /\
     flows_through m2 (combine xs us) /\
     forall x, hd 0 xs <= x <= last xs 0 -> exists u, q_u_e m2 x = Ok u /\ 0 < u) /\
  (nu <= 0 \/ ~ Sorted Rlt xs ->
   new_head pchip_scipy (Fin nu) (PTup [PArr (vec xs); PArr (vec us)]) PNone PNone crit = Err ValueError).
Proof.
  intros Hc Hh HL Ex Eu Ed Eh En Hn.
  assert (PO := loaded_positive floats float1 read_case junk o c o' first summ smoo rest Hc Hh HL).
  assert (L : List.length xs = List.length us).
  { rewrite <- (map_length Fin xs), <- (map_length Fin us), <- Ex, <- Eu.
    unfold case_x, case_u_e. rewrite !map_length. reflexivity. }
  assert (L2 : (2 <= List.length xs)%nat).
  { rewrite <- (map_length Fin xs), <- Ex. unfold case_x. rewrite map_length. exact Hn. }
  pose proof (points_velocity_lemma (blank_head nu) (PArr (vec xs)) (PArr (vec us)) xs us PNone PNone eq_refl eq_refl) as [V1 V2].
  split.
  - intros Pn S. destruct (V2 (usable_of_sorted xs us L L2 S)) as (m' & U & dU & d2U & E & A & F & _ & _ & B).
    assert (Pd : 0 < d0).
    { apply (PO st_delta_m); [right; left; reflexivity|]. change (In (Fin d0) (case_delta_m o')). rewrite Ed. left. reflexivity. }
    assert (Ph : 0 < h0).
    { apply (PO st_shape_d); [right; right; left; reflexivity|]. change (In (Fin h0) (case_shape_d o')). rewrite Eh. left. reflexivity. }
    assert (Pu : forall u, In u us -> 0 < u).
    { intros u Hu. apply (PO st_u_e); [left; reflexivity|]. change (In (Fin u) (case_u_e o')). rewrite Eu. apply in_map. exact Hu. }
    exists (made_head m' crit).
    destruct (head_conditions (made_head m' crit) d0 h0 eq_refl Pd Ph) as (m1 & m2 & E1 & E2 & K & G1 & G2).
    exists m1, m2. split; [apply (head_created _ _ crit nu m' (Ok tt) Pn); [discriminate|exact E]|].
    split; [exact E1|]. split; [exact E2|].
    assert (A2 : answers m2 U (fun x => Ok (dU x)) (fun x => Ok (d2U x))) by (intros x; rewrite K; exact (A x)).
    split. { rewrite K. cbn. pose proof (CoreProofs.set_velocity_frame pchip_scipy (blank_head nu)
      (PTup [PArr (vec xs); PArr (vec us)]) PNone PNone) as FR. rewrite E in FR. exact (proj1 (proj2 FR)). }
    split; [exact G1|]. split; [exact G2|].
    split; [exact (combine_through m2 xs us U _ _ L A2 F B)|].
    intros x Hx. exists (U x). split; [apply A2|].
    assert (N : us <> []) by (intros N; subst us; cbn in L; lia).
    destruct (least us N) as (lo & Hin & Hlo). destruct (greatest us N) as (hi & Hhi).
    pose proof (B lo hi (fun u Hu => conj (Hlo u Hu) (Hhi u Hu)) x Hx). pose proof (Pu lo Hin). lra.
  - intros [H|H]; [exact (head_refused _ _ _ _ H)|].
    destruct (Rle_dec nu 0) as [N|N]; [exact (head_refused _ _ _ _ N)|].
    apply (head_created _ _ crit nu (blank_head nu) (Err ValueError)); [lra|discriminate|].
    apply V1. intros K. exact (H (sorted_of_usable _ _ K)).
Qed.

Lemma case_gradient_flow_lemma o c o' first summ smoo rest xs u0 us gs d0 ds h0 hs nu crit : c <> ""%string ->
  case_holds read_case c first (summ :: smoo :: rest) ->
  set_case floats float1 read_case junk o c = (o', Ok tt) ->
  case_x o' = map Fin xs -> case_u_e o' = map Fin (u0 :: us) -> case_du_e o' = map Fin gs ->
  case_delta_m o' = map Fin (d0 :: ds) ->
  case_shape_d o' = map Fin (h0 :: hs) -> cd_nu_ref o' = Fin nu -> (2 <= station_count o')%nat ->
  0 < nu -> Sorted Rlt xs ->
  exists m m1 m2, new_head pchip_scipy (Fin nu) (PNum u0) (PTup [PArr (vec xs); PArr (vec gs)]) PNone crit = Ok m /\
    set_initial_delta_m m (Fin d0) = (m1, Ok tt) /\ set_initial_shape_d m1 (Fin h0) = (m2, Ok tt) /\
    m_nu m2 = Fin nu /\ get_initial_delta_m m2 = Ok (Fin d0) /\ get_initial_shape_d m2 = Ok (Fin h0) /\
    q_u_e m2 (hd 0 xs) = Ok u0 /\ (forall x g, In (x, g) (combine xs gs) -> q_du_e m2 x = Ok g).
Proof.
  intros Hc Hh HL Ex Eu Eg Ed Eh En Hn Pn S.
  assert (PO := loaded_positive floats float1 read_case junk o c o' first summ smoo rest Hc Hh HL).
  assert (L : List.length xs = List.length gs).
  { rewrite <- (map_length Fin xs), <- (map_length Fin gs), <- Ex, <- Eg.
    unfold case_x, case_du_e. rewrite !map_length. reflexivity. }
  assert (L2 : (2 <= List.length xs)%nat).
  { rewrite <- (map_length Fin xs), <- Ex. unfold case_x. rewrite map_length. exact Hn. }
  pose proof (derivative_points_lemma (blank_head nu) u0 (PArr (vec xs)) (PArr (vec gs)) xs gs PNone eq_refl eq_refl) as [_ V2].
  destruct (V2 (usable_of_sorted xs gs L L2 S)) as (m' & U & dU & d2U & E & A & E0 & F & _).
  assert (Pd : 0 < d0).
  { apply (PO st_delta_m); [right; left; reflexivity|]. change (In (Fin d0) (case_delta_m o')). rewrite Ed. left. reflexivity. }
  assert (Ph : 0 < h0).
  { apply (PO st_shape_d); [right; right; left; reflexivity|]. change (In (Fin h0) (case_shape_d o')). rewrite Eh. left. reflexivity. }
  exists (made_head m' crit).
  destruct (head_conditions (made_head m' crit) d0 h0 eq_refl Pd Ph) as (m1 & m2 & E1 & E2 & K & G1 & G2).
  exists m1, m2. split; [apply (head_created _ _ crit nu m' (Ok tt) Pn); [discriminate|exact E]|].
  split; [exact E1|]. split; [exact E2|].
  assert (A2 : answers m2 U (fun x => Ok (dU x)) (fun x => Ok (d2U x))) by (intros x; rewrite K; exact (A x)).
  split. { rewrite K. cbn. pose proof (CoreProofs.set_velocity_frame pchip_scipy (blank_head nu)
    (PNum u0) (PTup [PArr (vec xs); PArr (vec gs)]) PNone) as FR. rewrite E in FR. exact (proj1 (proj2 FR)). }
  split; [exact G1|]. split; [exact G2|].
  split; [rewrite (proj1 (A2 _)), E0; reflexivity|].
  intros x g Hin. apply In_nth_error in Hin. destruct Hin as [i Hi].
  rewrite (proj1 (proj2 (A2 x))). f_equal. apply (proj1 F i).
  - clear -Hi. revert gs i Hi. induction xs as [|y xs IH]; intros [|g' gs] [|i] Hi; try discriminate; cbn in *.
    + congruence. + exact (IH _ _ Hi).
  - clear -Hi. revert gs i Hi. induction xs as [|y xs IH]; intros [|g' gs] [|i] Hi; try discriminate; cbn in *.
    + congruence. + exact (IH _ _ Hi).
Qed.
End Flow.
