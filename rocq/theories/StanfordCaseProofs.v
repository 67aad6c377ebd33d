(** Proofs about case files and the case object of the 1968 Stanford data. *)
From Coq Require Import Reals List Bool String Ascii Lia Lra.
From Verif Require Import PyBase PyBaseFacts PyText StanfordModel StanfordSpec StanfordProofs
  StanfordLoadProofs.
Import ListNotations.
Open Scope R_scope.

(* ------------------------------------------------------------------ *)
(** * Text *)

Lemma has_marker_iff l : has_marker l = true <-> header_line l.
Proof.
  induction l as [|c t IH].
  - split; [discriminate|]. intros (a & b & H). destruct a; discriminate.
  - cbn [has_marker]. rewrite orb_true_iff, andb_true_iff. split.
    + intros [[H1 H2]|H].
      * destruct t as [|d t]; [discriminate|]. apply Ascii.eqb_eq in H1, H2. subst.
        exists ""%string, t. reflexivity.
      * apply IH in H. destruct H as (a & b & ->). exists (String c a), b. reflexivity.
    + intros (a & b & H). destruct a as [|e a].
      * cbn in H. injection H as -> ->. left. split; reflexivity.
      * cbn in H. injection H as -> ->. right. apply IH. exists a, b. reflexivity.
Qed.
Lemma no_marker l : ~ header_line l -> has_marker l = false.
Proof. rewrite <- has_marker_iff. destruct (has_marker l); [congruence|reflexivity]. Qed.

(** The character does not occur. *)
Definition free_of (c : ascii) (s : string) : Prop := ~ In c (list_ascii_of_string s).
Lemma free_cons c a t : free_of c (String a t) <-> a <> c /\ free_of c t.
Proof. unfold free_of. cbn. intuition congruence. Qed.

Lemma split_end c t : free_of c t -> split_on c t = [t].
Proof.
  induction t as [|a t IH]; intros H; [reflexivity|]. apply free_cons in H. destruct H as [Ha H].
  cbn [split_on]. rewrite (proj2 (Ascii.eqb_neq a c) Ha), IH by exact H. reflexivity.
Qed.
Lemma split_mid c t r : free_of c t -> split_on c (t ++ String c r) = t :: split_on c r.
Proof.
  induction t as [|a t IH]; intros H.
  - cbn [append split_on]. rewrite Ascii.eqb_refl. reflexivity.
  - apply free_cons in H. destruct H as [Ha H]. cbn [append split_on].
    rewrite (proj2 (Ascii.eqb_neq a c) Ha), IH by exact H. reflexivity.
Qed.
Lemma no_newline_free t : ~ has_newline t -> free_of nl t.
Proof.
  induction t as [|a t IH]; intros H; [intros []|]. apply free_cons. split.
  - intros ->. apply H. exists ""%string, t. reflexivity.
  - apply IH. intros (u & v & ->). apply H. exists (String a u), v. reflexivity.
Qed.

Lemma append_nil_r (s : string) : (s ++ "" = s)%string.
Proof. induction s as [|c s IH]; [reflexivity|]. cbn. rewrite IH. reflexivity. Qed.
Lemma append_assoc (a b c : string) : ((a ++ b) ++ c = a ++ (b ++ c))%string.
Proof. induction a as [|x a IH]; [reflexivity|]. cbn. rewrite IH. reflexivity. Qed.

Lemma concat_cons x l : String.concat "" (x :: l) = (x ++ String.concat "" l)%string.
Proof. destruct l; [cbn; rewrite append_nil_r|]; reflexivity. Qed.

Lemma split_lines texts tail :
  Forall (fun t => ~ has_newline t) texts ->
  split_on nl (String.concat "" (map (fun t => t ++ String nl "")%string texts ++ tail)) =
  texts ++ split_on nl (String.concat "" tail).
Proof.
  induction 1 as [|t texts Ht _ IH]; [reflexivity|].
  cbn [map app]. rewrite concat_cons, append_assoc. cbn [append].
  rewrite split_mid by (apply no_newline_free; exact Ht). rewrite IH. reflexivity.
Qed.

Lemma block_lines lines texts : lines_of lines texts -> block lines = rows_kept texts.
Proof.
  unfold block, rows_kept, nonempty. intros [Hn [->|(init & last & -> & ->)]].
  - rewrite <- (app_nil_r (map _ texts)), split_lines by exact Hn. cbn.
    rewrite filter_app. cbn. apply app_nil_r.
  - apply Forall_app in Hn. destruct Hn as [H1 H2].
    rewrite split_lines by exact H1. cbn [String.concat]. inversion H2; subst.
    rewrite split_end by (apply no_newline_free; assumption). reflexivity.
Qed.

(* ------------------------------------------------------------------ *)
(** * Sections *)

Lemma marks_app a b i : marks (a ++ b) i = marks a i ++ marks b (i + List.length a).
Proof.
  revert i. induction a as [|l a IH]; intros i; cbn [marks app List.length].
  - rewrite Nat.add_0_r. reflexivity.
  - rewrite IH. replace (S i + List.length a)%nat with (i + S (List.length a))%nat by lia.
    destruct (has_marker l); reflexivity.
Qed.
Lemma marks_none a i : Forall (fun l => ~ header_line l) a -> marks a i = [].
Proof.
  intros H. revert i. induction H as [|l a Hl _ IH]; intros i; [reflexivity|].
  cbn [marks]. rewrite no_marker by exact Hl. apply IH.
Qed.
Lemma marks_header l t i : header_line l -> marks (l :: t) i = i :: marks t (S i).
Proof. intros H. cbn [marks]. rewrite (proj2 (has_marker_iff l) H). reflexivity. Qed.

Lemma slice_mid (pre mid post : list string) a b :
  a = List.length pre -> b = (List.length pre + List.length mid)%nat ->
  slice (pre ++ mid ++ post) a b = mid.
Proof.
  intros -> ->. unfold slice. rewrite skipn_app, skipn_all, Nat.sub_diag. cbn [app skipn].
  replace (List.length pre + List.length mid - List.length pre)%nat with (List.length mid) by lia.
  rewrite firstn_app, firstn_all, Nat.sub_diag. cbn [firstn]. apply app_nil_r.
Qed.

Lemma chunks_sections secs : Forall well_headed secs -> forall pre h rows,
  Forall (fun l => ~ header_line l) rows ->
  let buff := pre ++ h :: rows ++ flat_map section_lines secs in
  chunks buff (List.length pre)
    (marks (rows ++ flat_map section_lines secs) (S (List.length pre)) ++ [List.length buff]) =
  block rows :: map (fun c => block (sc_lines c)) secs.
Proof.
  induction 1 as [|c secs Hc _ IH]; intros pre h rows Hrows buff.
  - cbn [flat_map]. rewrite app_nil_r, marks_none by exact Hrows. cbn [app].
    assert (E : buff = (pre ++ [h]) ++ rows ++ []).
    { unfold buff. cbn [flat_map]. rewrite !app_nil_r, <- app_assoc. reflexivity. }
    assert (L : List.length buff = (List.length pre + 1 + List.length rows)%nat).
    { rewrite E, !app_length. cbn. lia. }
    cbn [chunks]. rewrite (proj2 (Nat.ltb_lt _ _)) by lia. cbn [map].
    rewrite E. rewrite slice_mid; [reflexivity| |].
    + rewrite app_length. reflexivity.
    + rewrite <- E, L, app_length. cbn. lia.
  - destruct Hc as (H1 & H2 & Hl).
    cbn [flat_map]. unfold section_lines at 1. cbn [app].
    rewrite marks_app, marks_none by exact Hrows. cbn [app].
    rewrite marks_header by exact H1. rewrite marks_header by exact H2.
    set (i1 := (S (List.length pre) + List.length rows)%nat).
    assert (E1 : buff = (pre ++ [h]) ++ rows ++ (sc_head1 c :: sc_head2 c :: sc_lines c ++ flat_map section_lines secs)).
    { unfold buff. cbn [flat_map]. unfold section_lines at 1. cbn [app]. rewrite <- app_assoc. reflexivity. }
    assert (E2 : buff = (pre ++ h :: rows ++ [sc_head1 c]) ++ sc_head2 c :: sc_lines c ++ flat_map section_lines secs).
    { unfold buff. cbn [flat_map]. unfold section_lines at 1. cbn [app].
      rewrite <- app_assoc. cbn [app]. rewrite <- app_assoc. reflexivity. }
    cbn [chunks app]. rewrite (proj2 (Nat.ltb_lt _ _)) by (unfold i1; lia).
    replace (block (slice buff (List.length pre + 1) i1)) with (block rows).
    2:{ rewrite E1, slice_mid; [reflexivity| |].
        - rewrite app_length. reflexivity.
        - unfold i1. rewrite app_length. cbn. lia. }
    cbn [map]. apply f_equal.
    rewrite (proj2 (Nat.ltb_ge _ _)) by lia.
    assert (L : List.length (pre ++ h :: rows ++ [sc_head1 c]) = S i1).
    { rewrite app_length. cbn [List.length]. rewrite app_length. cbn. unfold i1. lia. }
    specialize (IH (pre ++ h :: rows ++ [sc_head1 c]) (sc_head2 c) (sc_lines c) Hl).
    cbv zeta in IH. rewrite L, <- E2 in IH. exact IH.
Qed.

Section Case.
Variable floats : string -> option (list xr).
Variable float1 : string -> option xr.
Variable read_case : string -> option (list string).
Variable junk : nat -> xr.

Lemma case_sections c first sections : case_holds read_case c first sections ->
  get_case_data read_case c = first :: sections.
Proof.
  intros (lines & leading & head & rows & texts & secs & stexts & Hr & Hf & Ht & Hs & -> & ->).
  destruct Hf as (-> & Hlead & Hhead & Hrows & Hsecs).
  unfold get_case_data. rewrite Hr, marks_app, marks_none by exact Hlead. cbn [app].
  rewrite marks_header by exact Hhead. cbn [app Nat.add].
  rewrite (chunks_sections secs Hsecs leading head rows Hrows).
  rewrite (block_lines _ _ Ht). apply f_equal.
  clear Hsecs Hr. revert stexts Hs. induction secs as [|c' secs IH]; intros stexts Hs; inversion Hs; subst;
    [reflexivity|]. cbn [map]. rewrite (block_lines _ _ H1), (IH _ H3). reflexivity.
Qed.

(* ------------------------------------------------------------------ *)
(** * "key = value" *)

Lemma drop_blank a l : Forall (fun c => is_space c = true) a -> drop_space (a ++ l) = drop_space l.
Proof. induction 1 as [|c a Hc _ IH]; [reflexivity|]. cbn [app drop_space]. rewrite Hc. exact IH. Qed.
Lemma drop_word w l : Forall (fun c => is_space c = false) w -> w <> [] -> drop_space (w ++ l) = w ++ l.
Proof. intros H N. destruct w as [|c w]; [congruence|]. inversion H; subst. cbn. rewrite H2. reflexivity. Qed.

Lemma chars_app a b : list_ascii_of_string (a ++ b) = list_ascii_of_string a ++ list_ascii_of_string b.
Proof. induction a as [|c a IH]; [reflexivity|]. cbn. rewrite IH. reflexivity. Qed.

Lemma strip_padded a w b : blank a -> blank b -> plain_word w ->
  strip (a ++ w ++ b) = w.
Proof.
  intros Ha Hb Hw. unfold strip. rewrite !chars_app, !rev_app_distr.
  assert (Hw' : Forall (fun c => is_space c = false) (list_ascii_of_string w)).
  { eapply Forall_impl; [|exact Hw]. intros c [H _]. exact H. }
  rewrite <- app_assoc, drop_blank by (apply Forall_rev; exact Hb).
  destruct (list_ascii_of_string w) as [|c l] eqn:E.
  - cbn [rev app].
    assert (D : drop_space (rev (list_ascii_of_string a)) = []).
    { rewrite <- (app_nil_r (rev _)), drop_blank by (apply Forall_rev; exact Ha). reflexivity. }
    rewrite D. destruct w; [reflexivity|discriminate].
  - rewrite drop_word; [|apply Forall_rev; exact Hw'|].
    2:{ intros C. apply (f_equal (@rev ascii)) in C. rewrite rev_involutive in C. discriminate. }
    rewrite rev_app_distr, !rev_involutive, drop_blank by exact Ha.
    rewrite <- (app_nil_r (c :: l)), drop_word by (first [exact Hw'|discriminate]).
    rewrite app_nil_r, <- E. apply string_of_list_ascii_of_string.
Qed.

Lemma free_app c a b : free_of c (a ++ b) <-> free_of c a /\ free_of c b.
Proof. unfold free_of. rewrite chars_app, in_app_iff. tauto. Qed.
Lemma blank_free s : blank s -> free_of "=" s.
Proof. intros H C. unfold blank in H. rewrite Forall_forall in H. specialize (H _ C). discriminate. Qed.
Lemma plain_free s : plain_word s -> free_of "=" s.
Proof. intros H C. unfold plain_word in H. rewrite Forall_forall in H. destruct (H _ C) as [_ H']. congruence. Qed.

Lemma assigns_parts t k v : assigns t k v -> plain_word k -> plain_word v ->
  map strip (split_on "=" t) = [k; v].
Proof.
  intros (a & b & c & d & Ha & Hb & Hc & Hd & ->) Hk Hv.
  replace (a ++ k ++ b ++ "=" ++ c ++ v ++ d)%string
    with ((a ++ k ++ b) ++ String "=" (c ++ v ++ d))%string by (rewrite !append_assoc; reflexivity).
  rewrite split_mid by (rewrite !free_app; auto using blank_free, plain_free).
  rewrite split_end by (rewrite !free_app; auto using blank_free, plain_free).
  cbn [map]. rewrite !strip_padded by assumption. reflexivity.
Qed.

Lemma ident_ok ident more sections c key : assigns ident key c -> plain_word c ->
  key = "IDENT"%string \/ key = "ident"%string ->
  check_ident ((ident :: more) :: sections) c = Ok tt.
Proof.
  intros Ha Hc Hk. unfold check_ident. cbn [item nth_error bind].
  rewrite (assigns_parts _ _ _ Ha); [|destruct Hk as [-> | ->]; repeat constructor; discriminate|exact Hc].
  cbn [item nth_error bind]. rewrite String.eqb_refl.
  destruct Hk as [-> | ->]; reflexivity.
Qed.

Lemma nu_ok ident visc more sections u key w nu : assigns visc key w -> plain_word w ->
  key = "V"%string \/ key = "v"%string -> float1 w = Some (Fin (nu / viscosity_unit u)) ->
  read_nu float1 ((ident :: visc :: more) :: sections) (is_si u) = Ok (Fin nu).
Proof.
  intros Ha Hw Hk Hf. unfold read_nu. cbn [item nth_error bind].
  rewrite (assigns_parts _ _ _ Ha); [|destruct Hk as [-> | ->]; repeat constructor; discriminate|exact Hw].
  cbn [item nth_error bind]. rewrite Hf, get_visc.
  destruct Hk as [-> | ->]; reflexivity.
Qed.

Lemma smooth_ok u rows vs : Forall2 (fun t v => prints floats t (velocity_columns u v)) rows vs ->
  exists m, new_smooth floats (is_si u) rows = Ok m /\ shows_velocities m vs.
Proof.
  induction 1 as [|t v rows vs Ht _ (m & Em & H1 & H2 & H3)].
  - eexists. split; [reflexivity|]. repeat split.
  - cbn [new_smooth]. unfold smooth_row. rewrite Ht. unfold velocity_columns. cbn [map bind].
    rewrite Em. cbn [bind]. rewrite !get_length. eexists. split; [reflexivity|].
    unfold shows_velocities. cbn [sm_x sm_u_e sm_du_e map]. rewrite H1, H2, H3. repeat split.
Qed.

(* ------------------------------------------------------------------ *)
(** * Stations *)

Notation built si inp st := (new_station floats junk si (fst (fst inp)) (snd (fst inp)) (snd inp) = Ok st).

Lemma add_stations_spec si l : forall o o',
  add_stations floats junk si l o = (o', Ok tt) <->
  exists sts, Forall2 (fun inp st => built si inp st) l sts /\
    o' = cwith_station o (cd_station o ++ sts).
Proof.
  induction l as [|[[a b] r] l IH]; intros o o'; cbn [add_stations].
  - split.
    + intros H. injection H as <-. exists []. split; [constructor|]. rewrite app_nil_r. destruct o; reflexivity.
    + intros (sts & H & ->). inversion H; subst. rewrite app_nil_r. destruct o; reflexivity.
  - destruct (new_station floats junk si a b r) as [s|e] eqn:E.
    + rewrite IH. split.
      * intros (sts & H & ->). exists (s :: sts). split; [constructor; [exact E|exact H]|].
        unfold cwith_station. cbn [cd_station cd_case cd_nu_ref cd_smooth]. rewrite <- app_assoc. reflexivity.
      * intros (sts & H & ->). inversion H as [|? st ? sts' H1 H2]; subst. cbn in H1. rewrite E in H1.
        injection H1 as <-. exists sts'. split; [exact H2|].
        unfold cwith_station. cbn [cd_station cd_case cd_nu_ref cd_smooth]. rewrite <- app_assoc. reflexivity.
    + split; [discriminate|]. intros (sts & H & _). inversion H; subst. cbn in H2. congruence.
Qed.

Lemma add_stations_keep si l : forall o,
  cd_case (fst (add_stations floats junk si l o)) = cd_case o /\
  cd_nu_ref (fst (add_stations floats junk si l o)) = cd_nu_ref o /\
  cd_smooth (fst (add_stations floats junk si l o)) = cd_smooth o.
Proof.
  induction l as [|[[a b] r] l IH]; intros o; cbn [add_stations]; [repeat split|].
  destruct (new_station floats junk si a b r) as [st|]; [|repeat split].
  exact (IH (cwith_station o (cd_station o ++ [st]))).
Qed.

Lemma nth_combine {A B} (la : list A) (lb : list B) i x :
  nth_error (combine la lb) i = Some x <->
  nth_error la i = Some (fst x) /\ nth_error lb i = Some (snd x).
Proof.
  revert lb i. induction la as [|a la IH]; intros lb i.
  - destruct i; cbn; (split; [discriminate|intros [H _]; discriminate]).
  - destruct lb as [|b lb].
    + destruct i; cbn; (split; [discriminate|intros [_ H]; discriminate]).
    + destruct i; cbn [combine nth_error]; [|apply IH].
      destruct x as [p q]. cbn [fst snd]. split; [intros H; injection H as -> ->; auto|].
      intros [H1 H2]. injection H1 as ->. injection H2 as ->. reflexivity.
Qed.

Lemma inputs_spec first summ smoo rest i a b r :
  nth_error (station_inputs (first :: summ :: smoo :: rest) summ) i = Some (a, b, r) <->
  station_source summ rest i a b r.
Proof.
  unfold station_inputs, station_source. destruct rest as [|stat [|p rest]].
  - cbn [List.length Nat.ltb Nat.leb]. rewrite nth_error_map.
    destruct (nth_error summ i) as [s|]; cbn [option_map].
    + split; [intros H; injection H as -> <- <-; auto|intros (H & -> & ->); injection H as ->; reflexivity].
    + split; [discriminate|intros (H & _); discriminate].
  - cbn [List.length Nat.ltb Nat.leb nth]. rewrite nth_error_map.
    destruct (nth_error (combine summ stat) i) as [[x y]|] eqn:E; cbn [option_map fst snd].
    + apply nth_combine in E. cbn [fst snd] in E. destruct E as [-> ->].
      split; [intros H; injection H as -> -> <-; auto|].
      intros (H1 & H2 & ->). injection H1 as ->. injection H2 as ->. reflexivity.
    + split; [discriminate|]. intros (H1 & H2 & ->). exfalso.
      assert (C : nth_error (combine summ stat) i = Some (a, b)) by (apply nth_combine; auto).
      congruence.
  - replace (Nat.ltb (List.length (first :: summ :: smoo :: stat :: p :: rest)) 4) with false by reflexivity.
    replace (Nat.ltb (List.length (first :: summ :: smoo :: stat :: p :: rest)) 5) with false by reflexivity.
    cbv zeta. cbn [nth skipn]. rewrite nth_combine. cbn [fst snd]. rewrite nth_combine. cbn [fst snd]. tauto.
Qed.

Lemma Forall2_nth {A B} (P : A -> B -> Prop) la lb : Forall2 P la lb -> forall i,
  (forall b, nth_error lb i = Some b -> exists a, nth_error la i = Some a /\ P a b) /\
  (forall a, nth_error la i = Some a -> exists b, nth_error lb i = Some b /\ P a b).
Proof.
  induction 1 as [|a b la lb H _ IH]; intros i.
  - split; intros x Hx; destruct i; discriminate.
  - destruct i; cbn [nth_error]; [|apply IH].
    split; intros x Hx; injection Hx as <-; eauto.
Qed.

Lemma si_units c : si_case c = is_si (units_of c).
Proof. destruct c as [|a c]; [reflexivity|]. cbn. destruct (Ascii.eqb a "1"); reflexivity. Qed.

(** A successful load, in full. *)
Lemma set_case_inv o c o' : c <> ""%string -> set_case floats float1 read_case junk o c = (o', Ok tt) ->
  exists first summ smoo rest m,
    get_case_data read_case c = first :: summ :: smoo :: rest /\
    check_ident (first :: summ :: smoo :: rest) c = Ok tt /\
    read_nu float1 (first :: summ :: smoo :: rest) (si_case c) = Ok (cd_nu_ref o') /\
    new_smooth floats (si_case c) smoo = Ok m /\ cd_smooth o' = Some m /\ cd_case o' = c /\
    Forall2 (fun inp st => built (si_case c) inp st)
      (station_inputs (first :: summ :: smoo :: rest) summ) (cd_station o').
Proof.
  intros Hc. unfold set_case. rewrite (proj2 (String.eqb_neq c "") Hc).
  destruct (check_ident (get_case_data read_case c) c) as [[]|] eqn:E1; [|discriminate].
  destruct (read_nu float1 (get_case_data read_case c) (si_case c)) as [nu|] eqn:E2; [|discriminate].
  destruct (get_case_data read_case c) as [|first [|summ [|smoo rest]]]; try discriminate.
  cbn [item nth_error bind]. destruct (new_smooth floats (si_case c) smoo) as [m|] eqn:E3; [|discriminate].
  intros H. apply add_stations_spec in H. destruct H as (sts & H & ->).
  exists first, summ, smoo, rest, m. cbn. repeat split; assumption.
Qed.

Lemma case_pairing o c o' first summ smoo rest : c <> ""%string ->
  case_holds read_case c first (summ :: smoo :: rest) ->
  set_case floats float1 read_case junk o c = (o', Ok tt) ->
  forall i st, nth_error (cd_station o') i = Some st <->
    exists a b r, station_source summ rest i a b r /\
      new_station floats junk (is_si (units_of c)) a b r = Ok st.
Proof.
  intros Hc Hh H. apply set_case_inv in H; [|exact Hc].
  destruct H as (f' & s' & m' & r' & m & E & _ & _ & _ & _ & _ & H).
  rewrite (case_sections _ _ _ Hh) in E. injection E as <- <- <- <-.
  intros i st. destruct (Forall2_nth _ _ _ H i) as [H1 H2]. rewrite <- si_units. split.
  - intros Hi. destruct (H1 _ Hi) as ([[a b] r] & Hn & Hb). exists a, b, r. split; [|exact Hb].
    apply (inputs_spec first summ smoo rest). exact Hn.
  - intros (a & b & r & Hs & Hb). apply (inputs_spec first summ smoo rest) in Hs.
    destruct (H2 _ Hs) as (st' & Hn & Hb'). cbn in Hb'. rewrite Hb in Hb'. injection Hb' as <-. exact Hn.
Qed.

Lemma build_all si l : (forall i a b r, nth_error l i = Some (a, b, r) ->
    exists st, new_station floats junk si a b r = Ok st) ->
  exists sts, Forall2 (fun inp st => built si inp st) l sts.
Proof.
  induction l as [|[[a b] r] l IH]; intros H; [exists []; constructor|].
  destruct (H 0%nat a b r eq_refl) as [st Hst].
  destruct IH as [sts Hs]; [intros i a' b' r' Hi; apply (H (S i)); exact Hi|].
  exists (st :: sts). constructor; assumption.
Qed.

Lemma case_loads o c ident visc more key w kv nu summ smoo rest vs :
  case_holds read_case c (ident :: visc :: more) (summ :: smoo :: rest) ->
  c <> ""%string -> plain_word c ->
  assigns ident key c -> key = "IDENT"%string \/ key = "ident"%string ->
  assigns visc kv w -> kv = "V"%string \/ kv = "v"%string -> plain_word w ->
  float1 w = Some (Fin (nu / viscosity_unit (units_of c))) ->
  Forall2 (fun t v => prints floats t (velocity_columns (units_of c) v)) smoo vs ->
  (forall i a b r, station_source summ rest i a b r ->
     exists st, new_station floats junk (is_si (units_of c)) a b r = Ok st) ->
  exists o', set_case floats float1 read_case junk o c = (o', Ok tt) /\
    cd_case o' = c /\ cd_nu_ref o' = Fin nu /\
    (exists m, cd_smooth o' = Some m /\ shows_velocities m vs) /\
    (forall i st, nth_error (cd_station o') i = Some st <->
       exists a b r, station_source summ rest i a b r /\
         new_station floats junk (is_si (units_of c)) a b r = Ok st).
Proof.
  intros Hh Hc Hp Hi Hk Hv Hkv Hw Hf Hs Hst.
  assert (E : exists o', set_case floats float1 read_case junk o c = (o', Ok tt) /\
    cd_case o' = c /\ cd_nu_ref o' = Fin nu /\
    (exists m, cd_smooth o' = Some m /\ shows_velocities m vs)).
  { unfold set_case. rewrite (proj2 (String.eqb_neq c "") Hc), (case_sections _ _ _ Hh).
    rewrite (ident_ok _ _ _ _ _ Hi Hp Hk), si_units, (nu_ok _ _ _ _ _ _ _ _ Hv Hw Hkv Hf).
    cbn [item nth_error bind]. destruct (smooth_ok _ _ _ Hs) as (m & Em & Hm). rewrite Em.
    destruct (build_all (is_si (units_of c))
      (station_inputs ((ident :: visc :: more) :: summ :: smoo :: rest) summ)) as [sts Hb].
    { intros i a b r Hn. apply (Hst i a b r). apply (inputs_spec (ident :: visc :: more) summ smoo rest). exact Hn. }
    eexists. split; [apply add_stations_spec; exists sts; split; [exact Hb|reflexivity]|].
    cbn. repeat split. exists m. split; [reflexivity|exact Hm]. }
  destruct E as (o' & E & H1 & H2 & H3). exists o'. repeat (split; [assumption|]).
  apply (case_pairing o c o' _ _ _ _ Hc Hh E).
Qed.

(* ------------------------------------------------------------------ *)
(** * History and failures *)

Lemma add_stations_same si l : forall o1 o2, cd_station o1 = cd_station o2 ->
  snd (add_stations floats junk si l o1) = snd (add_stations floats junk si l o2) /\
  cd_station (fst (add_stations floats junk si l o1)) = cd_station (fst (add_stations floats junk si l o2)).
Proof.
  induction l as [|[[a b] r] l IH]; intros o1 o2 H; cbn [add_stations]; [auto|].
  destruct (new_station floats junk si a b r); [|auto].
  apply IH. cbn. rewrite H. reflexivity.
Qed.

Notation run o c := (set_case floats float1 read_case junk o c).

Lemma set_case_history o1 o2 c :
  snd (run o1 c) = snd (run o2 c) /\
  cd_nu_ref (fst (run o1 c)) = cd_nu_ref (fst (run o2 c)) /\
  cd_smooth (fst (run o1 c)) = cd_smooth (fst (run o2 c)) /\
  cd_station (fst (run o1 c)) = cd_station (fst (run o2 c)) /\
  (snd (run o1 c) = Ok tt -> fst (run o1 c) = fst (run o2 c)).
Proof.
  assert (X : snd (run o1 c) = snd (run o2 c) /\
    cd_nu_ref (fst (run o1 c)) = cd_nu_ref (fst (run o2 c)) /\
    cd_smooth (fst (run o1 c)) = cd_smooth (fst (run o2 c)) /\
    cd_station (fst (run o1 c)) = cd_station (fst (run o2 c)) /\
    (snd (run o1 c) = Ok tt -> cd_case (fst (run o1 c)) = cd_case (fst (run o2 c)))).
  { unfold set_case. destruct (String.eqb c ""); [cbn; auto|].
    destruct (check_ident (get_case_data read_case c) c); [|cbn; repeat split; discriminate].
    destruct (read_nu float1 (get_case_data read_case c) (si_case c)); [|cbn; repeat split; discriminate].
    destruct (bind (item (get_case_data read_case c) 2) (new_smooth floats (si_case c)));
      [|cbn; repeat split; discriminate].
    destruct (item (get_case_data read_case c) 1); [|cbn; repeat split; discriminate].
    match goal with |- context [add_stations _ _ ?si ?l (cwith_smooth ?x _)] =>
      pose proof (add_stations_keep si l) as K; pose proof (add_stations_same si l) as S end.
    split; [apply S; reflexivity|].
    split; [rewrite !(proj1 (proj2 (K _))); reflexivity|].
    split; [rewrite !(proj2 (proj2 (K _))); reflexivity|].
    split; [apply S; reflexivity|]. intros _. rewrite !(proj1 (K _)). reflexivity. }
  destruct X as (E1 & E2 & E3 & E4 & E5). repeat (split; [assumption|]).
  intros H. specialize (E5 H).
  destruct (fst (run o1 c)) as [a1 b1 c1 d1], (fst (run o2 c)) as [a2 b2 c2 d2]. cbn in *. congruence.
Qed.

Lemma set_case_name o c : cd_case (fst (run o c)) = cd_case o \/ cd_case (fst (run o c)) = c.
Proof.
  unfold set_case. destruct (String.eqb_spec c "") as [->|]; [right; reflexivity|].
  destruct (check_ident (get_case_data read_case c) c); [right|left; reflexivity].
  destruct (read_nu float1 (get_case_data read_case c) (si_case c)); [|reflexivity].
  destruct (bind (item (get_case_data read_case c) 2) (new_smooth floats (si_case c))); [|reflexivity].
  destruct (item (get_case_data read_case c) 1); [|reflexivity].
  rewrite (proj1 (add_stations_keep _ _ _)). reflexivity.
Qed.

Lemma set_case_missing o c : c <> ""%string -> read_case c = None ->
  exists o', run o c = (o', Err IndexError) /\ cd_case o' = cd_case o /\
    cd_nu_ref o' = PInf /\ cd_smooth o' = None /\ cd_station o' = [].
Proof.
  intros Hc Hr. unfold set_case. rewrite (proj2 (String.eqb_neq c "") Hc).
  unfold get_case_data. rewrite Hr. cbn [check_ident item nth_error bind].
  eexists. split; [reflexivity|]. repeat split.
Qed.

Lemma set_case_empty o : exists o', run o "" = (o', Ok tt) /\ cd_case o' = ""%string /\
    cd_nu_ref o' = PInf /\ cd_smooth o' = None /\ cd_station o' = [].
Proof. eexists. split; [reflexivity|]. repeat split. Qed.

Lemma set_case_wrong_ident o c ident more sections key other :
  case_holds read_case c (ident :: more) sections -> c <> ""%string ->
  assigns ident key other -> plain_word key -> plain_word other ->
  (key <> "IDENT"%string /\ key <> "ident"%string) \/ other <> c ->
  exists o', run o c = (o', Err ValueError) /\ cd_case o' = cd_case o /\
    cd_nu_ref o' = PInf /\ cd_smooth o' = None /\ cd_station o' = [].
Proof.
  intros Hh Hc Ha Hk Ho Hbad. unfold set_case.
  rewrite (proj2 (String.eqb_neq c "") Hc), (case_sections _ _ _ Hh).
  assert (E : check_ident ((ident :: more) :: sections) c = Err ValueError).
  { unfold check_ident. cbn [item nth_error bind]. rewrite (assigns_parts _ _ _ Ha Hk Ho).
    cbn [item nth_error bind].
    destruct (String.eqb_spec key "IDENT") as [E1|E1], (String.eqb_spec key "ident") as [E2|E2];
    cbn [negb andb]; try reflexivity; (destruct Hbad as [[]|Hb]; [congruence|]);
    rewrite (proj2 (String.eqb_neq other c) Hb); reflexivity. }
  rewrite E. eexists. split; [reflexivity|]. repeat split.
Qed.

End Case.
