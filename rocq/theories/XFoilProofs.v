(** Proofs about the XFoil reader. *)
From Coq Require Import Reals List Bool String Ascii Lia Lra Sorted.
From Verif Require Import PyBase PyBaseFacts XFoilModel XFoilSpec.
Import ListNotations.
Open Scope R_scope.

(* ---------------- rows ---------------- *)

(** What the setters let through. *)
Definition row_valid (r : arow) : Prop :=
  xltb (a_s r) (Fin 0) = false /\ xltb (a_delta_d r) (Fin 0) = false /\
  xltb (a_delta_m r) (Fin 0) = false /\ xltb (a_c_f r) (Fin 0) = false /\
  xleb (a_shape_d r) (Fin 0) = false /\ xleb (a_shape_k r) (Fin 0) = false.

Definition cols (r : arow) : list xr :=
  [a_s r; a_x r; a_y r; a_u_e_rel r; a_delta_d r; a_delta_m r; a_c_f r;
   a_shape_d r; a_shape_k r; a_mom_defect r; a_mass_defect r; a_ke_defect r].

Lemma fill_arow_ok r0 cs r : fill_arow r0 cs = Ok r -> cs = cols r /\ row_valid r.
Proof.
  unfold fill_arow.
  destruct cs as [|s [|x [|y [|u [|dd [|dm [|cf [|hd [|hk [|mo [|ma [|ke [|z t]]]]]]]]]]]]]; try discriminate.
  unfold aset_s, aset_x, aset_y, aset_u_e_rel, aset_delta_d, aset_delta_m, aset_c_f, aset_shape_d,
    aset_shape_k, aset_mom_defect, aset_mass_defect, aset_ke_defect.
  destruct (xltb s (Fin 0)) eqn:E1; [discriminate|]. cbn [bind].
  destruct (xltb dd (Fin 0)) eqn:E2; [discriminate|]. cbn [bind].
  destruct (xltb dm (Fin 0)) eqn:E3; [discriminate|]. cbn [bind].
  destruct (xltb cf (Fin 0)) eqn:E4; [discriminate|]. cbn [bind].
  destruct (xleb hd (Fin 0)) eqn:E5; [discriminate|]. cbn [bind].
  destruct (xleb hk (Fin 0)) eqn:E6; [discriminate|]. cbn [bind].
  intros H. inversion H; subst r. split; [reflexivity|]. repeat split; assumption.
Qed.

Lemma fill_arow_valid r : row_valid r -> fill_arow arow_inf (cols r) = Ok r.
Proof.
  intros (E1 & E2 & E3 & E4 & E5 & E6). unfold fill_arow, cols.
  unfold aset_s, aset_x, aset_y, aset_u_e_rel, aset_delta_d, aset_delta_m, aset_c_f, aset_shape_d,
    aset_shape_k, aset_mom_defect, aset_mass_defect, aset_ke_defect.
  rewrite E1. cbn [bind]. rewrite E2. cbn [bind]. rewrite E3. cbn [bind]. rewrite E4. cbn [bind].
  rewrite E5. cbn [bind]. rewrite E6. cbn [bind]. destruct r; reflexivity.
Qed.

Lemma physical_valid r : physical_row r -> row_valid r.
Proof.
  intros ([s [Es Hs]] & [d [Ed Hd]] & [m [Em Hm]] & [c [Ec Hc]] & [h [Eh Hh]] & [k [Ek Hk]]).
  unfold row_valid. rewrite Es, Ed, Em, Ec, Eh, Ek. cbn [xltb xleb].
  rewrite !Rltb_false, !Rleb_false by assumption. repeat split.
Qed.

Lemma aset_valid f r v r' : row_valid r -> aset f r v = Ok r' -> row_valid r'.
Proof.
  intros (E1 & E2 & E3 & E4 & E5 & E6).
  destruct f; cbn [aset]; unfold aset_s, aset_x, aset_y, aset_u_e_rel, aset_delta_d, aset_delta_m,
    aset_c_f, aset_shape_d, aset_shape_k, aset_mom_defect, aset_mass_defect, aset_ke_defect;
  try (destruct (xltb v (Fin 0)) eqn:V; [discriminate|]);
  try (destruct (xleb v (Fin 0)) eqn:V; [discriminate|]);
  intros H; inversion H; repeat split; assumption.
Qed.

Lemma arow_inf_valid : row_valid arow_inf.
Proof. repeat split. Qed.

Section Text.
Variable floats : string -> option (list xr).
Variable read : string -> res (list string).

Lemma new_arow_ok l r : l <> ""%string -> new_arow floats l = Ok r ->
  line_holds floats l r /\ row_valid r.
Proof.
  intros Hl. unfold new_arow.
  destruct (String.eqb l "") eqn:E; [apply String.eqb_eq in E; contradiction|].
  destruct (floats l) as [cs|] eqn:F; [|discriminate]. intros H. apply fill_arow_ok in H.
  destruct H as [-> V]. split; [exact F|exact V].
Qed.

Lemma new_arow_valid l r : l <> ""%string -> line_holds floats l r -> row_valid r ->
  new_arow floats l = Ok r.
Proof.
  intros Hl H V. unfold new_arow.
  destruct (String.eqb l "") eqn:E; [apply String.eqb_eq in E; contradiction|].
  rewrite H. apply fill_arow_valid. exact V.
Qed.

(** A line whose numbers are those of [r] gives [r] or ValueError. *)
Lemma new_arow_holds l r r' : l <> ""%string -> line_holds floats l r ->
  new_arow floats l = Ok r' -> r' = r /\ row_valid r.
Proof.
  intros Hl H N. destruct (new_arow_ok _ _ Hl N) as [H' V]. unfold line_holds in *.
  rewrite H in H'. destruct r, r'. cbn in *. inversion H'; subst. split; [reflexivity|exact V].
Qed.

Lemma new_arow_row_valid l r : new_arow floats l = Ok r -> row_valid r.
Proof.
  unfold new_arow. destruct (String.eqb l "").
  - intros H. inversion H. apply arow_inf_valid.
  - destruct (floats l) as [cs|]; [|discriminate]. intros H. apply fill_arow_ok in H. apply H.
Qed.

(* ---------------- the store ---------------- *)

Lemma upd_length st l r : List.length (upd st l r) = List.length st.
Proof. revert l. induction st as [|h t IH]; intros [|l]; cbn; auto. Qed.

Lemma get_upd_same st l r : (l < List.length st)%nat -> get (upd st l r) l = r.
Proof.
  revert l. induction st as [|h t IH]; intros [|l] H; cbn in *; try lia; [reflexivity|].
  apply IH. lia.
Qed.

Lemma get_upd_other st l k r : l <> k -> get (upd st l r) k = get st k.
Proof.
  revert l k. induction st as [|h t IH]; intros [|l] [|k] H; cbn; auto; try lia.
  apply IH. lia.
Qed.

Lemma each_ok f ls : forall st st', NoDup ls -> Forall (fun l => l < List.length st)%nat ls ->
  each f ls st = (st', Ok tt) ->
  List.length st' = List.length st /\
  Forall2 (fun a b => f a = Ok b) (map (get st) ls) (map (get st') ls) /\
  (forall k, ~ In k ls -> get st' k = get st k).
Proof.
  induction ls as [|l t IH]; intros st st' ND HL; cbn [each map].
  - intros H. inversion H; subst. split; [reflexivity|]. split; [constructor|auto].
  - inversion ND as [|? ? N1 N2]; subst. inversion HL as [|? ? H1 H2]; subst.
    destruct (f (get st l)) as [r|] eqn:E; [|discriminate]. intros H.
    apply IH in H; [|exact N2|rewrite upd_length; exact H2].
    destruct H as (L & F2 & O). rewrite upd_length in L. split; [exact L|]. split.
    + constructor.
      * rewrite (O l N1), get_upd_same by exact H1. exact E.
      * assert (Em : map (get (upd st l r)) t = map (get st) t).
        { apply map_ext_in. intros k Hk. apply get_upd_other. intros ->. contradiction. }
        rewrite Em in F2. exact F2.
    + intros k Hk. rewrite O by (intros K; apply Hk; right; exact K).
      apply get_upd_other. intros ->. apply Hk. left. reflexivity.
Qed.

Lemma each_succeeds f ls : forall st,
  NoDup ls -> Forall (fun l => l < List.length st)%nat ls ->
  Forall (fun l => exists r, f (get st l) = Ok r) ls ->
  exists st', each f ls st = (st', Ok tt).
Proof.
  induction ls as [|l t IH]; intros st ND HL HF; cbn [each]; [eexists; reflexivity|].
  inversion ND as [|? ? N1 N2]; subst. inversion HL as [|? ? H1 H2]; subst.
  inversion HF as [|? ? [r Er] H4]; subst. rewrite Er. apply IH; [exact N2|rewrite upd_length; exact H2|].
  rewrite Forall_forall in *. intros k Hk. rewrite get_upd_other; [apply H4; exact Hk|].
  intros ->. contradiction.
Qed.

Lemma get_app_l st t l : (l < List.length st)%nat -> get (st ++ t) l = get st l.
Proof. intros H. unfold get. apply app_nth1. exact H. Qed.

Lemma map_get_seq pre st post :
  map (get (pre ++ st ++ post)) (seq (List.length pre) (List.length st)) = st.
Proof.
  revert pre. induction st as [|h t IH]; intros pre; cbn [List.length seq map]; [reflexivity|].
  f_equal.
  - unfold get. rewrite app_nth2, Nat.sub_diag by lia. reflexivity.
  - specialize (IH (pre ++ [h])). rewrite app_length in IH. cbn [List.length] in IH.
    rewrite Nat.add_1_r in IH. rewrite <- app_assoc in IH. exact IH.
Qed.

(* ---------------- the file ---------------- *)

Lemma short_line_long ls k idx : Forall (fun l => 80 <= String.length l)%nat ls ->
  short_line (ls ++ k) idx = short_line k (idx + List.length ls).
Proof.
  intros H. revert idx. induction H as [|l t Hl Ht IH]; intros idx.
  - cbn [app List.length]. rewrite Nat.add_0_r. reflexivity.
  - cbn [app short_line List.length]. destruct (Nat.ltb_spec (String.length l) 80); [lia|].
    rewrite IH. f_equal. lia.
Qed.

Lemma dump_file_split lines A W f :
  read f = Ok lines -> dump_file lines A W -> get_dump_data read f = Ok (A, W).
Proof.
  intros R (hd & -> & Hh & Hn & Ha & HL & HW). unfold get_dump_data. rewrite R. cbn [bind].
  rewrite app_assoc, (short_line_long _ W 0 HL). cbn [Nat.add].
  assert (S : match (hd ++ A) ++ W with
          | [] => Err IndexError
          | l0 :: _ => match String.get 0 l0 with
              | None => Err IndexError
              | Some ch => Ok (if Ascii.eqb ch "#"%char then 1%nat else 0%nat) end end
          = Ok (List.length hd)).
  { destruct Hh as [->|[h [-> E]]].
    - specialize (Hn eq_refl). destruct A as [|l t]; [contradiction|]. destruct Hn as [c [E N]].
      cbn [app]. rewrite E. destruct (Ascii.eqb_spec c "#"%char); [contradiction|reflexivity].
    - cbn [app]. rewrite E. rewrite Ascii.eqb_refl. reflexivity. }
  destruct ((hd ++ A) ++ W) as [|l0 rest] eqn:EL.
  { destruct A; [contradiction|]. destruct hd; discriminate. }
  destruct (String.get 0 l0) as [ch|]; [|discriminate].
  assert (Es : (if Ascii.eqb ch "#"%char then 1%nat else 0%nat) = List.length hd) by congruence.
  rewrite Es, <- EL. clear S Es EL.
  assert (Lp : (0 < List.length (hd ++ A))%nat).
  { rewrite app_length. destruct A; [contradiction|cbn; lia]. }
  destruct W as [|w t].
  - cbn [short_line]. rewrite app_nil_r. rewrite skipn_app, skipn_all, Nat.sub_diag. reflexivity.
  - cbn [short_line]. destruct (Nat.ltb_spec (String.length w) 80); [|lia].
    destruct (List.length (hd ++ A)) as [|k] eqn:EK; [lia|]. rewrite <- EK.
    rewrite firstn_app, firstn_all, Nat.sub_diag. cbn [firstn]. rewrite app_nil_r.
    rewrite skipn_app, skipn_all, Nat.sub_diag. cbn [skipn app].
    rewrite skipn_app, skipn_all, Nat.sub_diag. reflexivity.
Qed.

Lemma upper_loop_spec P rp n N : forall rn st up idx,
  Forall2 (fun l r => new_arow floats l = Ok r) P rp ->
  Forall (fun r => xltb (a_u_e_rel r) (Fin 0) = false) rp ->
  new_arow floats n = Ok rn -> xltb (a_u_e_rel rn) (Fin 0) = true ->
  upper_loop floats (P ++ n :: N) idx st up =
    (st ++ rp, rev (seq (List.length st) (List.length rp)) ++ up, Ok (Some (idx + List.length P)%nat)).
Proof.
  revert rp. induction P as [|l t IH]; intros rp rn st up idx F2 HU Hn Un; inversion F2; subst.
  - cbn [app upper_loop List.length seq rev]. rewrite Hn, Un, app_nil_r, Nat.add_0_r. reflexivity.
  - inversion HU as [|? ? U1 U2]; subst. cbn [app upper_loop]. rewrite H1, U1.
    rewrite (IH l' rn) by assumption.
    rewrite <- app_assoc. cbn [app List.length seq rev].
    rewrite app_length. cbn [List.length]. rewrite Nat.add_1_r, <- app_assoc. cbn [app].
    rewrite Nat.add_succ_comm. reflexivity.
Qed.

Lemma map_r_spec {A B} (f : A -> res B) l : forall r, map_r f l = Ok r <-> Forall2 (fun a b => f a = Ok b) l r.
Proof.
  induction l as [|a t IH]; intros r; cbn [map_r].
  - split; intros H; [inversion H; constructor|inversion H; reflexivity].
  - split.
    + destruct (f a) as [b|] eqn:E; cbn [bind]; [|discriminate].
      destruct (map_r f t) as [r'|]; cbn [bind]; [|discriminate].
      intros H. inversion H; subst. constructor; [exact E|]. apply IH. reflexivity.
    + intros H. inversion H as [|? b ? r' E F]; subst. rewrite E. cbn [bind].
      apply IH in F. rewrite F. reflexivity.
Qed.

Definition neg_row (a : arow) : arow :=
  awith_ke_defect (awith_mass_defect (awith_u_e_rel a (a_u_e_rel a * Fin (-1))%xr)
    (a_mass_defect a * Fin (-1))%xr) (a_ke_defect a * Fin (-1))%xr.
Lemma negate_row_ok a : negate_row a = Ok (neg_row a).
Proof. reflexivity. Qed.

Lemma Forall2_map_fun {A} (f : A -> res A) (g : A -> A) l r :
  (forall a, f a = Ok (g a)) -> Forall2 (fun a b => f a = Ok b) l r -> r = map g l.
Proof.
  intros H F. induction F as [|a b l r E F IH]; [reflexivity|]. cbn [map]. rewrite H in E.
  inversion E; subst. reflexivity.
Qed.

Lemma each_negate lo st st2 :
  NoDup lo -> Forall (fun l => l < List.length st)%nat lo ->
  each negate_row lo st = (st2, Ok tt) ->
  map (get st2) lo = map neg_row (map (get st) lo).
Proof.
  intros ND HL H. apply each_ok in H; [|exact ND|exact HL]. destruct H as (_ & F & _).
  apply (Forall2_map_fun negate_row neg_row); [exact negate_row_ok|exact F].
Qed.

(* ---------------- the whole load ---------------- *)

Lemma list_snoc {A} (l : list A) : l <> [] -> exists b a, l = b ++ [a].
Proof.
  intros H. destruct (exists_last H) as [b [a E]]. exists b, a. exact E.
Qed.

Definition shape_of (r' : reader) (P N W : list string) (rp rl : list arow) : Prop :=
  exists b u l t frac p,
    rp = b ++ [u] /\ rl = l :: t /\
    py_div (a_u_e_rel u) (a_u_e_rel u + a_u_e_rel l * Fin (-1))%xr = Ok frac /\
    interpolate u (neg_row l) frac = Ok p /\
    Forall2 (fun a c => upper_arc (a_s p) a = Ok c) (p :: rev rp) (upper_rows r') /\
    Forall2 (fun a c => lower_arc (a_s p) a = Ok c) (p :: map neg_row rl) (lower_rows r') /\
    NoDup (rd_upper r' ++ rd_lower r') /\
    Forall (fun k => k < List.length (rd_store r'))%nat (rd_upper r' ++ rd_lower r') /\
    exists ws, Forall2 (fun s w => new_wrow floats s = Ok w) W ws /\
      Forall2 (fun a c => wset_s a (w_s a - match ws with w :: _ => w_s w | [] => PInf end)%xr = Ok c)
        ws (rd_wake r').

Lemma shift_wake_ok off ws : forall ws', shift_wake_st off ws = (ws', Ok tt) ->
  Forall2 (fun a c => wset_s a (w_s a - off)%xr = Ok c) ws ws'.
Proof.
  induction ws as [|w t IH]; intros ws'; cbn [shift_wake_st].
  - intros H. inversion H. constructor.
  - destruct (wset_s w (w_s w - off)%xr) as [w'|] eqn:E; [|discriminate].
    destruct (shift_wake_st off t) as [t' r] eqn:Es. intros H. inversion H; subst.
    constructor; [exact E|]. apply IH. reflexivity.
Qed.

Lemma NoDup_app_disj {A} (l1 l2 : list A) :
  NoDup l1 -> NoDup l2 -> (forall x, In x l1 -> In x l2 -> False) -> NoDup (l1 ++ l2).
Proof.
  induction l1 as [|a t IH]; intros N1 N2 D; [exact N2|]. inversion N1; subst. cbn [app].
  constructor.
  - rewrite in_app_iff. intros [H|H]; [contradiction|]. apply (D a); [left; reflexivity|exact H].
  - apply IH; [assumption|assumption|]. intros x H K. apply (D x); [right; exact H|exact K].
Qed.

Lemma NoDup_rev_seq n k : NoDup (rev (seq n k)).
Proof. apply NoDup_rev. apply seq_NoDup. Qed.

Lemma In_seq_range n k : Forall (fun l => n <= l < n + k)%nat (seq n k).
Proof. apply Forall_forall. intros l H. apply in_seq in H. exact H. Qed.

Lemma load_shape r r' f A W P n N rp rl :
  f <> ""%string -> get_dump_data read f = Ok (A, W) -> A = P ++ n :: N -> P <> [] ->
  Forall2 (fun l r => new_arow floats l = Ok r) P rp ->
  Forall (fun r => xltb (a_u_e_rel r) (Fin 0) = false) rp ->
  Forall2 (fun l r => new_arow floats l = Ok r) (n :: N) rl ->
  match rl with l :: _ => xltb (a_u_e_rel l) (Fin 0) = true | [] => False end ->
  match rev rp with u :: _ => xeqb (a_u_e_rel u) (Fin 0) = false | [] => False end ->
  set_filename floats read r f = (r', Ok tt) ->
  shape_of r' P (n :: N) W rp rl.
Proof.
  intros Hf G EA HP F2 HU FL HN HZ. unfold set_filename.
  destruct (String.eqb f "") eqn:Ef; [apply String.eqb_eq in Ef; contradiction|].
  rewrite G. rewrite EA.
  destruct rl as [|l t]; [contradiction|]. inversion FL as [|? ? ? ? Hl Ht]; subst.
  rewrite (upper_loop_spec P rp n N l [] [] 0 F2 HU Hl HN). cbn [app List.length Nat.add].
  rewrite app_nil_r.
  cbn [lower_lines]. rewrite skipn_app, skipn_all, Nat.sub_diag. cbn [skipn app].
  assert (Em : map_r (new_arow floats) (n :: N) = Ok (l :: t)).
  { apply map_r_spec. constructor; assumption. }
  rewrite Em. set (rl := l :: t) in *. set (lo := seq (List.length rp) (List.length rl)).
  assert (NDl : NoDup lo) by apply seq_NoDup.
  assert (HLl : Forall (fun k => k < List.length (rp ++ rl))%nat lo).
  { eapply Forall_impl; [|apply In_seq_range]. cbn beta. intros k Hk. rewrite app_length. lia. }
  destruct (each negate_row lo (rp ++ rl)) as [st2 [[]|e]] eqn:E2; [|discriminate].
  pose proof (each_negate lo _ _ NDl HLl E2) as ML.
  assert (Mrl : map (get (rp ++ rl)) lo = rl).
  { unfold lo. pose proof (map_get_seq rp rl []) as K. rewrite app_nil_r in K. exact K. }
  rewrite Mrl in ML.
  pose proof (each_ok negate_row lo _ _ NDl HLl E2) as (L2 & _ & O2).
  assert (Mup : map (get st2) (seq 0 (List.length rp)) = rp).
  { transitivity (map (get (rp ++ rl)) (seq 0 (List.length rp))).
    - apply map_ext_in. intros k Hk. apply in_seq in Hk. apply O2. intro K. apply in_seq in K. lia.
    - exact (map_get_seq [] rp rl). }
  assert (Mupr : map (get st2) (rev (seq 0 (List.length rp))) = rev rp).
  { etransitivity; [apply map_rev|]. f_equal. exact Mup. }
  destruct (list_snoc rp) as (b & u & Erp).
  { intros ->. inversion F2; subst. contradiction. }
  set (up := rev (seq 0 (List.length rp))) in *.
  assert (Eup : exists u0 ur, up = u0 :: ur /\ get st2 u0 = u).
  { rewrite Erp, rev_app_distr in Mupr. cbn [rev app] in Mupr.
    destruct up as [|u0 ur]; [discriminate|]. exists u0, ur. split; [reflexivity|].
    cbn [map] in Mupr. congruence. }
  destruct Eup as (u0 & ur & Eup & Gu).
  assert (Elo : exists l0 lr, lo = l0 :: lr /\ get st2 l0 = neg_row l).
  { unfold rl in ML. cbn [map] in ML. destruct lo as [|l0 lr]; [discriminate|].
    exists l0, lr. split; [reflexivity|]. cbn [map] in ML. congruence. }
  destruct Elo as (l0 & lr & Elo & Gl).
  assert (Zu : xeqb (a_u_e_rel u) (Fin 0) = false).
  { rewrite Erp, rev_app_distr in HZ. cbn [rev app] in HZ. exact HZ. }
  unfold insert_stagnation. rewrite Eup, Gu, Zu, Elo, Gl.
  destruct (py_div (a_u_e_rel u) (a_u_e_rel u + a_u_e_rel (neg_row l))%xr) as [frac|] eqn:Ed;
    cbn [bind]; [|discriminate].
  destruct (interpolate u (neg_row l) frac) as [p|] eqn:Ei; cbn [bind]; [|discriminate].
  rewrite <- Eup, <- Elo.
  set (n2 := List.length st2). set (st3 := st2 ++ [p; p]).
  assert (L3 : List.length st3 = S (S n2)) by (unfold st3; rewrite app_length; cbn; lia).
  rewrite app_length in L2.
  assert (Hn2 : n2 = (List.length rp + List.length rl)%nat) by exact L2.
  assert (Rup : Forall (fun k => k < List.length rp)%nat up).
  { unfold up. apply Forall_rev. eapply Forall_impl; [|apply In_seq_range]. cbn beta. intros; lia. }
  assert (Rlo : Forall (fun k => List.length rp <= k < n2)%nat lo).
  { unfold lo. rewrite Hn2. apply In_seq_range. }
  assert (ND3u : NoDup (n2 :: up)).
  { constructor; [|apply NoDup_rev_seq]. rewrite Forall_forall in Rup. intro K. apply Rup in K. lia. }
  assert (ND3l : NoDup (S n2 :: lo)).
  { constructor; [|exact NDl]. rewrite Forall_forall in Rlo. intro K. apply Rlo in K. lia. }
  assert (R3u : Forall (fun k => k < List.length st3)%nat (n2 :: up)).
  { constructor; [lia|]. eapply Forall_impl; [|exact Rup]. cbn beta. intros; lia. }
  assert (R3l : Forall (fun k => k < List.length st3)%nat (S n2 :: lo)).
  { constructor; [lia|]. eapply Forall_impl; [|exact Rlo]. cbn beta. intros; lia. }
  assert (G3p : get st3 n2 = p).
  { unfold get, st3. rewrite app_nth2 by (unfold n2; lia). unfold n2. rewrite Nat.sub_diag. reflexivity. }
  assert (G3q : get st3 (S n2) = p).
  { unfold get, st3. rewrite app_nth2 by (unfold n2; lia).
    replace (S n2 - List.length st2)%nat with 1%nat by (unfold n2; lia). reflexivity. }
  assert (M3u : map (get st3) (n2 :: up) = p :: rev rp).
  { cbn [map]. rewrite G3p. f_equal. rewrite <- Mupr. apply map_ext_in. intros k Hk.
    rewrite Forall_forall in Rup. apply Rup in Hk. unfold st3. apply get_app_l. fold n2. lia. }
  assert (M3l : map (get st3) (S n2 :: lo) = p :: map neg_row rl).
  { cbn [map]. rewrite G3q. f_equal. rewrite <- ML. apply map_ext_in. intros k Hk.
    rewrite Forall_forall in Rlo. apply Rlo in Hk. unfold st3. apply get_app_l. fold n2. lia. }
  destruct (each (upper_arc (a_s p)) (n2 :: up) st3) as [st4 [[]|e]] eqn:E4; [|discriminate].
  pose proof (each_ok _ _ _ _ ND3u R3u E4) as (L4 & F4 & O4).
  rewrite M3u in F4.
  assert (R4l : Forall (fun k => k < List.length st4)%nat (S n2 :: lo)) by (rewrite L4; exact R3l).
  destruct (each (lower_arc (a_s p)) (S n2 :: lo) st4) as [st5 [[]|e]] eqn:E5; [|discriminate].
  pose proof (each_ok _ _ _ _ ND3l R4l E5) as (L5 & F5 & O5).
  assert (M4l : map (get st4) (S n2 :: lo) = p :: map neg_row rl).
  { rewrite <- M3l. apply map_ext_in. intros k Hk. apply O4. rewrite Forall_forall in Rup, Rlo.
    intros [K|K].
    - subst k. destruct Hk as [Hk|Hk]; [lia|]. apply Rlo in Hk. lia.
    - apply Rup in K. destruct Hk as [Hk|Hk]; [subst k; lia|]. apply Rlo in Hk. lia. }
  rewrite M4l in F5.
  assert (M5u : map (get st5) (n2 :: up) = map (get st4) (n2 :: up)).
  { apply map_ext_in. intros k Hk. apply O5. rewrite Forall_forall in Rup, Rlo.
    intros [K|K].
    - subst k. destruct Hk as [Hk|Hk]; [lia|]. apply Rup in Hk. lia.
    - apply Rlo in K. destruct Hk as [Hk|Hk]; [subst k; lia|]. apply Rup in Hk. lia. }
  rewrite <- M5u in F4.
  assert (NDa : NoDup ((n2 :: up) ++ S n2 :: lo)).
  { apply NoDup_app_disj; [exact ND3u|exact ND3l|]. intros k Hk Kk.
    rewrite Forall_forall in Rup, Rlo.
    destruct Hk as [Hk|Hk]; [subst k|apply Rup in Hk];
      (destruct Kk as [Kk|Kk]; [lia|apply Rlo in Kk; lia]). }
  assert (R5 : Forall (fun k => k < List.length st5)%nat ((n2 :: up) ++ S n2 :: lo)).
  { apply Forall_app. rewrite L5, L4. split; assumption. }
  intros H.
  exists b, u, l, t, frac, p. split; [exact Erp|]. split; [reflexivity|].
  split; [exact Ed|]. split; [exact Ei|].
  destruct W as [|w wt].
  - injection H as <-. split; [exact F4|]. split; [exact F5|].
    split; [exact NDa|]. split; [exact R5|].
    exists []. split; [constructor|]. cbn. constructor.
  - destruct (map_r (new_wrow floats) (w :: wt)) as [ws|] eqn:Ew; [|discriminate].
    destruct (shift_wake_st _ ws) as [ws' rr] eqn:Es. injection H as <- ->.
    split; [exact F4|]. split; [exact F5|].
    split; [exact NDa|]. split; [exact R5|].
    exists ws. split; [apply map_r_spec; exact Ew|]. apply shift_wake_ok. exact Es.
Qed.

Lemma load_total r f A W P n N rp rl :
  f <> ""%string -> get_dump_data read f = Ok (A, W) -> A = P ++ n :: N -> P <> [] ->
  Forall2 (fun l r => new_arow floats l = Ok r) P rp ->
  Forall (fun r => xltb (a_u_e_rel r) (Fin 0) = false) rp ->
  Forall2 (fun l r => new_arow floats l = Ok r) (n :: N) rl ->
  match rl with l :: _ => xltb (a_u_e_rel l) (Fin 0) = true | [] => False end ->
  match rev rp with u :: _ => xeqb (a_u_e_rel u) (Fin 0) = false | [] => False end ->
  (forall b u l t, rp = b ++ [u] -> rl = l :: t -> exists frac p,
     py_div (a_u_e_rel u) (a_u_e_rel u + a_u_e_rel l * Fin (-1))%xr = Ok frac /\
     interpolate u (neg_row l) frac = Ok p /\
     Forall (fun a => exists c, upper_arc (a_s p) a = Ok c) (p :: rev rp) /\
     Forall (fun a => exists c, lower_arc (a_s p) a = Ok c) (p :: map neg_row rl)) ->
  (exists ws ws', Forall2 (fun s w => new_wrow floats s = Ok w) W ws /\
     shift_wake_st (match ws with w :: _ => w_s w | [] => PInf end) ws = (ws', Ok tt)) ->
  exists r', set_filename floats read r f = (r', Ok tt).
Proof.
  intros Hf G EA HP F2 HU FL HN HZ HS HW. unfold set_filename.
  destruct (String.eqb f "") eqn:Ef; [apply String.eqb_eq in Ef; contradiction|].
  rewrite G. rewrite EA.
  destruct rl as [|l t]; [contradiction|]. inversion FL as [|? ? ? ? Hl Ht]; subst.
  rewrite (upper_loop_spec P rp n N l [] [] 0 F2 HU Hl HN). cbn [app List.length Nat.add].
  rewrite app_nil_r.
  cbn [lower_lines]. rewrite skipn_app, skipn_all, Nat.sub_diag. cbn [skipn app].
  assert (Em : map_r (new_arow floats) (n :: N) = Ok (l :: t)).
  { apply map_r_spec. constructor; assumption. }
  rewrite Em. set (rl := l :: t) in *. set (lo := seq (List.length rp) (List.length rl)).
  assert (NDl : NoDup lo) by apply seq_NoDup.
  assert (HLl : Forall (fun k => k < List.length (rp ++ rl))%nat lo).
  { eapply Forall_impl; [|apply In_seq_range]. cbn beta. intros k Hk. rewrite app_length. lia. }
  destruct (each negate_row lo (rp ++ rl)) as [st2 [[]|e]] eqn:E2.
  2:{ destruct (each_succeeds negate_row lo (rp ++ rl) NDl HLl) as [s' Es'].
      { apply Forall_forall. intros k _. eexists. apply negate_row_ok. }
      rewrite Es' in E2. discriminate. }
  pose proof (each_negate lo _ _ NDl HLl E2) as ML.
  assert (Mrl : map (get (rp ++ rl)) lo = rl).
  { unfold lo. pose proof (map_get_seq rp rl []) as K. rewrite app_nil_r in K. exact K. }
  rewrite Mrl in ML.
  pose proof (each_ok negate_row lo _ _ NDl HLl E2) as (L2 & _ & O2).
  assert (Mup : map (get st2) (seq 0 (List.length rp)) = rp).
  { transitivity (map (get (rp ++ rl)) (seq 0 (List.length rp))).
    - apply map_ext_in. intros k Hk. apply in_seq in Hk. apply O2. intro K. apply in_seq in K. lia.
    - exact (map_get_seq [] rp rl). }
  assert (Mupr : map (get st2) (rev (seq 0 (List.length rp))) = rev rp).
  { etransitivity; [apply map_rev|]. f_equal. exact Mup. }
  destruct (list_snoc rp) as (b & u & Erp).
  { intros ->. inversion F2; subst. contradiction. }
  set (up := rev (seq 0 (List.length rp))) in *.
  assert (Eup : exists u0 ur, up = u0 :: ur /\ get st2 u0 = u).
  { rewrite Erp, rev_app_distr in Mupr. cbn [rev app] in Mupr.
    destruct up as [|u0 ur]; [discriminate|]. exists u0, ur. split; [reflexivity|].
    cbn [map] in Mupr. congruence. }
  destruct Eup as (u0 & ur & Eup & Gu).
  assert (Elo : exists l0 lr, lo = l0 :: lr /\ get st2 l0 = neg_row l).
  { unfold rl in ML. cbn [map] in ML. destruct lo as [|l0 lr]; [discriminate|].
    exists l0, lr. split; [reflexivity|]. cbn [map] in ML. congruence. }
  destruct Elo as (l0 & lr & Elo & Gl).
  assert (Zu : xeqb (a_u_e_rel u) (Fin 0) = false).
  { rewrite Erp, rev_app_distr in HZ. cbn [rev app] in HZ. exact HZ. }
  unfold insert_stagnation. rewrite Eup, Gu, Zu, Elo, Gl.
  destruct (HS b u l t Erp eq_refl) as (frac & p & Ed & Ei & HSu & HSl).
  change (a_u_e_rel (neg_row l)) with (a_u_e_rel l * Fin (-1))%xr.
  rewrite Ed. cbn [bind]. rewrite Ei. cbn [bind].
  rewrite <- Eup, <- Elo.
  set (n2 := List.length st2). set (st3 := st2 ++ [p; p]).
  assert (L3 : List.length st3 = S (S n2)) by (unfold st3; rewrite app_length; cbn; lia).
  rewrite app_length in L2.
  assert (Hn2 : n2 = (List.length rp + List.length rl)%nat) by exact L2.
  assert (Rup : Forall (fun k => k < List.length rp)%nat up).
  { unfold up. apply Forall_rev. eapply Forall_impl; [|apply In_seq_range]. cbn beta. intros; lia. }
  assert (Rlo : Forall (fun k => List.length rp <= k < n2)%nat lo).
  { unfold lo. rewrite Hn2. apply In_seq_range. }
  assert (ND3u : NoDup (n2 :: up)).
  { constructor; [|apply NoDup_rev_seq]. rewrite Forall_forall in Rup. intro K. apply Rup in K. lia. }
  assert (ND3l : NoDup (S n2 :: lo)).
  { constructor; [|exact NDl]. rewrite Forall_forall in Rlo. intro K. apply Rlo in K. lia. }
  assert (R3u : Forall (fun k => k < List.length st3)%nat (n2 :: up)).
  { constructor; [lia|]. eapply Forall_impl; [|exact Rup]. cbn beta. intros; lia. }
  assert (R3l : Forall (fun k => k < List.length st3)%nat (S n2 :: lo)).
  { constructor; [lia|]. eapply Forall_impl; [|exact Rlo]. cbn beta. intros; lia. }
  assert (G3p : get st3 n2 = p).
  { unfold get, st3. rewrite app_nth2 by (unfold n2; lia). unfold n2. rewrite Nat.sub_diag. reflexivity. }
  assert (G3q : get st3 (S n2) = p).
  { unfold get, st3. rewrite app_nth2 by (unfold n2; lia).
    replace (S n2 - List.length st2)%nat with 1%nat by (unfold n2; lia). reflexivity. }
  assert (M3u : map (get st3) (n2 :: up) = p :: rev rp).
  { cbn [map]. rewrite G3p. f_equal. rewrite <- Mupr. apply map_ext_in. intros k Hk.
    rewrite Forall_forall in Rup. apply Rup in Hk. unfold st3. apply get_app_l. fold n2. lia. }
  assert (M3l : map (get st3) (S n2 :: lo) = p :: map neg_row rl).
  { cbn [map]. rewrite G3q. f_equal. rewrite <- ML. apply map_ext_in. intros k Hk.
    rewrite Forall_forall in Rlo. apply Rlo in Hk. unfold st3. apply get_app_l. fold n2. lia. }
  destruct (each (upper_arc (a_s p)) (n2 :: up) st3) as [st4 [[]|e]] eqn:E4.
  2:{ destruct (each_succeeds (upper_arc (a_s p)) (n2 :: up) st3 ND3u R3u) as [s' Es'].
      { apply (proj1 (Forall_map (get st3) (fun a => exists c, upper_arc (a_s p) a = Ok c) _)).
        rewrite M3u. exact HSu. }
      rewrite Es' in E4. discriminate. }
  pose proof (each_ok _ _ _ _ ND3u R3u E4) as (L4 & F4 & O4).
  rewrite M3u in F4.
  assert (R4l : Forall (fun k => k < List.length st4)%nat (S n2 :: lo)) by (rewrite L4; exact R3l).
  assert (M4l : map (get st4) (S n2 :: lo) = p :: map neg_row rl).
  { rewrite <- M3l. apply map_ext_in. intros k Hk. apply O4. rewrite Forall_forall in Rup, Rlo.
    intros [K|K].
    - subst k. destruct Hk as [Hk|Hk]; [lia|]. apply Rlo in Hk. lia.
    - apply Rup in K. destruct Hk as [Hk|Hk]; [subst k; lia|]. apply Rlo in Hk. lia. }
  destruct (each (lower_arc (a_s p)) (S n2 :: lo) st4) as [st5 [[]|e]] eqn:E5.
  2:{ destruct (each_succeeds (lower_arc (a_s p)) (S n2 :: lo) st4 ND3l R4l) as [s' Es'].
      { apply (proj1 (Forall_map (get st4) (fun a => exists c, lower_arc (a_s p) a = Ok c) _)).
        rewrite M4l. exact HSl. }
      rewrite Es' in E5. discriminate. }
  destruct HW as (ws & ws' & Fw & Sw). destruct W as [|w wt]; [eexists; reflexivity|].
  apply map_r_spec in Fw. rewrite Fw, Sw. eexists. reflexivity.
Qed.
End Text.
