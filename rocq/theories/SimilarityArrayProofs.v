From Coq Require Import Reals List Lra Lia.
From Verif Require Import PyBase PyBaseFacts SimilarityModel SimilarityArrayModel SimilarityArraySpec.
Import ListNotations.
Open Scope R_scope.

(** ** Broadcasting *)
Section Rep.
Context {A : Type}.
Variable ps : list A.

(** The value stands for the function [h] on [ps], as an array or as a constant. *)
Definition full (a : nval) (h : A -> xr) : Prop := a = VArr (map h ps).
Definition const (a : nval) (h : A -> xr) : Prop :=
  exists c, (a = VPy c \/ a = VNp c \/ a = VArr [c]) /\ forall p, In p ps -> h p = c.
Definition rep (a : nval) (h : A -> xr) : Prop := full a h \/ const a h.

Lemma zip2_map f (h k : A -> xr) l : zip2 f (map h l) (map k l) = map (fun p => f (h p) (k p)) l.
Proof. induction l as [|p l IH]; [reflexivity|]. cbn. rewrite IH. reflexivity. Qed.
Lemma full_full f a b h k : full a h -> full b k -> nbin f a b = Ok (VArr (map (fun p => f (h p) (k p)) ps)).
Proof.
  intros -> ->. cbn [nbin]. unfold broadcast. rewrite !map_length, PeanoNat.Nat.eqb_refl, zip2_map. reflexivity.
Qed.
Lemma const_map (h : A -> xr) c (f : A -> xr) (g : xr -> A -> xr) : (forall p, In p ps -> h p = c) ->
  (forall p, f p = g (h p) p) -> map f ps = map (g c) ps.
Proof. intros H E. apply map_ext_in. intros p Hp. rewrite E, (H p Hp). reflexivity. Qed.
Lemma full_const f a b h k : full a h -> const b k -> nbin f a b = Ok (VArr (map (fun p => f (h p) (k p)) ps)).
Proof.
  intros -> (c & Hb & Hk).
  assert (E : map (fun p => f (h p) (k p)) ps = map (fun v => f v c) (map h ps)).
  { rewrite map_map. apply map_ext_in. intros p Hp. rewrite (Hk p Hp). reflexivity. }
  rewrite E. destruct Hb as [->|[->| ->]]; cbn [nbin]; [reflexivity|reflexivity|].
  unfold broadcast. destruct ps as [|p [|q r]]; [reflexivity| |reflexivity].
  reflexivity.
Qed.
Lemma const_full f a b h k : const a h -> full b k -> nbin f a b = Ok (VArr (map (fun p => f (h p) (k p)) ps)).
Proof.
  intros (c & Ha & Hh) ->.
  assert (E : map (fun p => f (h p) (k p)) ps = map (f c) (map k ps)).
  { rewrite map_map. apply map_ext_in. intros p Hp. rewrite (Hh p Hp). reflexivity. }
  rewrite E. destruct Ha as [->|[->| ->]]; cbn [nbin]; [reflexivity|reflexivity|].
  unfold broadcast. destruct ps as [|p [|q r]]; reflexivity.
Qed.
Lemma rep_full f a b h k : rep a h -> full b k -> nbin f a b = Ok (VArr (map (fun p => f (h p) (k p)) ps)).
Proof. intros [H|H]; [apply full_full|apply const_full]; exact H. Qed.
Lemma full_rep f a b h k : full a h -> rep b k -> nbin f a b = Ok (VArr (map (fun p => f (h p) (k p)) ps)).
Proof. intros F [H|H]; [apply full_full|apply full_const]; assumption. Qed.
Lemma rep_rep f a b h k : rep a h -> rep b k -> exists r, nbin f a b = Ok r /\ rep r (fun p => f (h p) (k p)).
Proof.
  intros Ha Hb. destruct Ha as [Ha|Ha].
  { eexists. split; [apply full_rep; eassumption|]. left. reflexivity. }
  destruct Hb as [Hb|Hb].
  { eexists. split; [apply const_full; eassumption|]. left. reflexivity. }
  destruct Ha as (c & Ha & Hh), Hb as (d & Hb & Hk).
  assert (V : forall p, In p ps -> f (h p) (k p) = f c d) by (intros p Hp; rewrite Hh, Hk by exact Hp; reflexivity).
  destruct Ha as [->|[->| ->]], Hb as [->|[->| ->]]; eexists; (split; [reflexivity|]); right; exists (f c d);
    (split; [auto|exact V]).
Qed.
Lemma rep_py c : rep (VPy c) (fun _ => c).
Proof. right. exists c. split; [auto|reflexivity]. Qed.
Lemma rep_sqrt a h : rep a h -> rep (nsqrt a) (fun p => xsqrt (h p)).
Proof.
  intros [->|(c & H & E)].
  - left. unfold full. cbn [nsqrt]. rewrite map_map. reflexivity.
  - right. exists (xsqrt c). split; [destruct H as [->|[->| ->]]; cbn [nsqrt map]; auto|].
    intros p Hp. rewrite (E p Hp). reflexivity.
Qed.
End Rep.

Lemma xmul_one v : (v * Fin 1)%xr = v.
Proof.
  destruct v; cbn; rewrite ?Rmult_1_r; try reflexivity; unfold inf_times;
    repeat match goal with |- context [if ?c then _ else _] => destruct c end; try reflexivity; exfalso; lra.
Qed.

(** ** The scalar queries *)
Section Object.
Variable o : sim.
Definition expo : res xr := py_div (s_beta o) (Fin 2 * s_alpha o - s_beta o)%xr.
Definition den : xr := match s_class o with
                       | CBlasius => (Fin 2 * s_nu_ref o)%xr
                       | CFalknerSkan => ((Fin 2 - s_beta o) * s_nu_ref o)%xr end.
Variable e : xr.
Hypothesis E : expo = Ok e.
Definition ue (x : R) : xr := (s_u_ref o * xpow (Fin x) e)%xr.
Definition gg (x : R) : xr := xsqrt (ue x / (den * Fin x))%xr.

Lemma ue_ok x : qs_u_e o x = Ok (ue x).
Proof. unfold qs_u_e. unfold expo in E. rewrite E. reflexivity. Qed.
Lemma gg_ok x : q_g o x = Ok (gg x).
Proof. unfold q_g. rewrite ue_ok. cbn [bind]. unfold gg, den. destruct (s_class o); reflexivity. Qed.

(** A position argument as a function of a point. *)
Definition reparg {A} (ps : list A) (x : arg) (sel : A -> R) : Prop :=
  x = NpArr (map sel ps) \/
  exists c, (x = PyNum c \/ x = NpNum c \/ x = NpArr [c]) /\ forall p, In p ps -> sel p = c.
(** Python floats only where they behave like numpy's. *)
Definition tame (x : arg) : Prop := forall c, x = PyNum c -> 0 < c.

Hypothesis U : usual o.

Lemma den_pos : exists d, den = Fin d /\ d <> 0.
Proof.
  destruct U as (A & (b & B) & (n & N & Pn) & _). unfold den. unfold expo in E.
  rewrite A, B in E. rewrite xmul_fin, xsub_fin in E. unfold py_div in E. cbn [xeqb] in E.
  rewrite N. destruct (s_class o).
  - rewrite xmul_fin. eexists. split; [reflexivity|lra].
  - rewrite B, xsub_fin, xmul_fin. eexists. split; [reflexivity|].
    intros Q. apply Rmult_integral in Q. destruct Q as [Q|Q]; [|lra].
    rewrite Reqb_true in E by lra. discriminate.
Qed.
Lemma e_fin : exists v, e = Fin v.
Proof.
  destruct U as (A & (b & B) & _). unfold expo in E. rewrite A, B, xmul_fin, xsub_fin in E. unfold py_div in E.
  cbn [xeqb] in E. destruct (Req_EM_T (2 * 1 - b) 0) as [Q|Q].
  - rewrite Reqb_true in E by exact Q. discriminate.
  - rewrite Reqb_false in E by exact Q. rewrite xdiv_fin in E by exact Q. injection E as <-. eauto.
Qed.

Lemma pow_py c : 0 < c -> npow (VPy (Fin c)) e = Ok (VPy (xpow (Fin c) e)).
Proof.
  intros H. destruct e_fin as [v ->]. cbn [npow]. destruct (Req_EM_T c 0); [lra|]. destruct (Rlt_dec c 0); [lra|reflexivity].
Qed.

Lemma a_ue_rep {A} (ps : list A) x sel : reparg ps x sel -> tame x ->
  exists r, a_u_e o x = Ok r /\ rep ps r (fun p => ue (sel p)) /\
    (x = NpArr (map sel ps) -> full ps r (fun p => ue (sel p))).
Proof.
  intros H T. unfold a_u_e. unfold expo in E. rewrite E. cbn [bind].
  destruct H as [->|(c & H & S)].
  - cbn [of_arg npow bind nmul nbin]. eexists. split; [reflexivity|].
    assert (F : full ps (VArr (map (xmul (s_u_ref o)) (map (fun v => xpow v e) (map Fin (map sel ps))))) (fun p => ue (sel p))).
    { unfold full. rewrite !map_map. reflexivity. }
    split; [left; exact F|auto].
  - destruct H as [->|[->| ->]].
    + change (of_arg (PyNum c)) with (VPy (Fin c)). rewrite (pow_py c (T c eq_refl)). cbn [bind nmul nbin]. eexists. split; [reflexivity|]. split; [|discriminate].
      right. exists (ue c). split; [left; reflexivity|]. intros p Hp. rewrite (S p Hp). reflexivity.
    + cbn [of_arg npow bind nmul nbin]. eexists. split; [reflexivity|]. split; [|discriminate].
      right. exists (ue c). split; [right; left; reflexivity|]. intros p Hp. rewrite (S p Hp). reflexivity.
    + cbn [of_arg npow bind nmul nbin map]. eexists. split; [reflexivity|]. split.
      * right. exists (ue c). split; [right; right; reflexivity|]. intros p Hp. rewrite (S p Hp). reflexivity.
      * intros Q. injection Q as Q. unfold full. f_equal. rewrite <- (map_map sel ue), <- Q. reflexivity.
Qed.

Lemma a_g_rep {A} (ps : list A) x sel : reparg ps x sel -> tame x ->
  exists r, a_g o x = Ok r /\ rep ps r (fun p => gg (sel p)) /\
    (x = NpArr (map sel ps) -> full ps r (fun p => gg (sel p))) /\
    (forall v, r <> VPy v).
Proof.
  intros H T. destruct den_pos as (dd & Dd & Nd).
  assert (G : exists r, a_g o x = Ok r /\ rep ps r (fun p => gg (sel p)) /\
    (x = NpArr (map sel ps) -> full ps r (fun p => gg (sel p)))).
  { destruct (a_ue_rep ps x sel H T) as (r & Er & Rr & Fr). unfold a_g. rewrite Er. cbn [bind].
    fold den. destruct H as [Hx|(c & Hx & S)].
    - rewrite Hx. cbn [of_arg nmul nbin bind]. specialize (Fr Hx).
      unfold ndiv. rewrite Fr.
      assert (F2 : full ps (VArr (map (xmul den) (map Fin (map sel ps)))) (fun p => (den * Fin (sel p))%xr)).
      { unfold full. rewrite !map_map. reflexivity. }
      rewrite (full_full ps xdiv _ _ (fun p => ue (sel p)) _ eq_refl F2). cbn [bind nsqrt]. eexists. split; [reflexivity|].
      assert (F3 : full ps (VArr (map xsqrt (map (fun p => (ue (sel p) / (den * Fin (sel p)))%xr) ps))) (fun p => gg (sel p))).
      { unfold full. rewrite map_map. reflexivity. }
      split; [left; exact F3|intros _; exact F3].
    - destruct Hx as [->|[->| ->]].
      + unfold a_u_e in Er. unfold expo in E. rewrite E in Er. cbn [bind] in Er.
        change (of_arg (PyNum c)) with (VPy (Fin c)) in *. rewrite (pow_py c (T c eq_refl)) in Er. cbn [bind nmul nbin] in Er.
        injection Er as <-. cbn [nmul nbin bind ndiv]. rewrite Dd, xmul_fin. unfold py_div. cbn [xeqb].
        pose proof (T c eq_refl) as Pc.
        rewrite Reqb_false by (apply Rmult_integral_contrapositive_currified; lra). cbn [bind nsqrt].
        eexists. split; [reflexivity|]. split; [|discriminate].
        right. exists (gg c). split; [right; left; unfold gg; rewrite Dd, xmul_fin; reflexivity|].
        intros p Hp. rewrite (S p Hp). reflexivity.
      + unfold a_u_e in Er. unfold expo in E. rewrite E in Er. cbn [bind of_arg npow nmul nbin] in Er.
        injection Er as <-. cbn [of_arg nmul nbin bind ndiv nsqrt].
        eexists. split; [reflexivity|]. split; [|discriminate].
        right. exists (gg c). split; [right; left; reflexivity|].
        intros p Hp. rewrite (S p Hp). reflexivity.
      + unfold a_u_e in Er. unfold expo in E. rewrite E in Er. cbn [bind of_arg npow nmul nbin map] in Er.
        injection Er as <-. cbn.
        eexists. split; [reflexivity|]. split.
        * right. exists (gg c). split; [right; right; reflexivity|].
          intros p Hp. rewrite (S p Hp). reflexivity.
        * intros Q. injection Q as Q. unfold full. f_equal. rewrite <- (map_map sel gg), <- Q. reflexivity. }
  destruct G as (r & Er & Rr & Fr). exists r. split; [exact Er|]. split; [exact Rr|]. split; [exact Fr|].
  intros v Q. unfold a_g in Er. destruct (a_u_e o x) as [n|]; [|discriminate]. cbn [bind] in Er.
  match type of Er with bind ?t _ = _ => destruct t as [d1|]; [|discriminate] end. cbn [bind] in Er.
  destruct (ndiv n d1) as [q|]; [|discriminate]. cbn [bind] in Er. injection Er as Er. subst r. destruct q; discriminate.
Qed.

Lemma ndiv_np c r : (forall v, r <> VPy v) -> ndiv (VPy c) r = nbin xdiv (VPy c) r.
Proof. intros H. destruct r; try reflexivity. congruence. Qed.


(** ** Scalar positions *)
Lemma np_ue x : a_u_e o (NpNum x) = Ok (VNp (ue x)).
Proof. unfold a_u_e. unfold expo in E. rewrite E. reflexivity. Qed.
Lemma np_g x : a_g o (NpNum x) = Ok (VNp (gg x)).
Proof. unfold a_g. rewrite np_ue. reflexivity. Qed.
Lemma py_ue x : 0 < x -> a_u_e o (PyNum x) = Ok (VPy (ue x)).
Proof.
  intros H. unfold a_u_e. unfold expo in E. rewrite E. cbn [bind].
  change (of_arg (PyNum x)) with (VPy (Fin x)). rewrite (pow_py x H). reflexivity.
Qed.
Lemma py_g x : 0 < x -> a_g o (PyNum x) = Ok (VNp (gg x)).
Proof.
  intros H. unfold a_g. rewrite (py_ue x H). cbn [bind nmul nbin of_arg ndiv]. fold den.
  destruct den_pos as (d & D & Nd). unfold gg. rewrite D, xmul_fin. unfold py_div. cbn [xeqb].
  rewrite Reqb_false by (apply Rmult_integral_contrapositive_currified; lra). reflexivity.
Qed.
End Object.

(** ** Queries with one position *)
Section One.
Variable o : sim.
Hypothesis U : usual o.

Lemma expo_cases : (exists e, expo o = Ok e) \/ expo o = Err ZeroDivisionError.
Proof.
  unfold expo, py_div. destruct (xeqb _ _); [right; reflexivity|left; eauto].
Qed.

Lemma fw_ok : exists w, q_fw_pp o = Ok w.
Proof. unfold q_fw_pp, q_f_pp. destruct (s_f o); eauto. Qed.

Lemma one_scalar Q q x : one_position Q q ->
  same_answer (q o x) (Q o (NpNum x)) /\ (0 < x -> same_answer (q o x) (Q o (PyNum x))).
Proof.
  intros HQ. destruct fw_ok as [w W].
  destruct expo_cases as [[e E]|E].
  - assert (A1 := ue_ok o e E x). assert (A2 := gg_ok o e E x).
    assert (B1 := np_ue o e E x). assert (B2 := np_g o e E x).
    assert (C1 := fun H => py_ue o e E U x H). assert (C2 := fun H => py_g o e E U x H).
    destruct HQ as [HQ|[rho HQ]]; cbn [In] in HQ;
    repeat (destruct HQ as [HQ|HQ]; [injection HQ as <- <-|]); try destruct HQ; (split; [|intros H]);
      try specialize (C1 H); try specialize (C2 H);
      unfold a_v_e, a_delta_d, a_delta_m, a_delta_k, a_delta_s, a_over_g, a_shape_d, a_shape_k, a_shape, a_tau_w, a_dissipation,
        qs_v_e, qs_delta_d, qs_delta_m, qs_delta_k, qs_delta_s, qs_shape_d, qs_shape_k, qs_tau_w, qs_dissipation;
      rewrite ?A1, ?A2, ?B1, ?B2, ?C1, ?C2, ?W; cbn [bind nmul nbin ndiv same_answer ones_like asarray]; try reflexivity.
    all: match goal with |- context [py_div ?a ?b] => destruct (py_div a b) as [v|]; cbn [bind nmul nbin same_answer]; [|reflexivity] end.
    all: rewrite xmul_one; reflexivity.
  - assert (A1 : forall y, qs_u_e o y = Err ZeroDivisionError) by (intros y; unfold qs_u_e; unfold expo in E; rewrite E; reflexivity).
    assert (A2 : forall y, q_g o y = Err ZeroDivisionError) by (intros y; unfold q_g; rewrite A1; reflexivity).
    assert (B1 : forall y, a_u_e o y = Err ZeroDivisionError) by (intros y; unfold a_u_e; unfold expo in E; rewrite E; reflexivity).
    assert (B2 : forall y, a_g o y = Err ZeroDivisionError) by (intros y; unfold a_g; rewrite B1; reflexivity).
    destruct HQ as [HQ|[rho HQ]]; cbn [In] in HQ;
    repeat (destruct HQ as [HQ|HQ]; [injection HQ as <- <-|]); try destruct HQ; (split; [|intros H]);
      unfold a_v_e, a_delta_d, a_delta_m, a_delta_k, a_delta_s, a_over_g, a_shape_d, a_shape_k, a_shape, a_tau_w, a_dissipation,
        qs_v_e, qs_delta_d, qs_delta_m, qs_delta_k, qs_delta_s, qs_shape_d, qs_shape_k, qs_tau_w, qs_dissipation;
      rewrite ?A1, ?A2, ?B1, ?B2; cbn [bind same_answer]; try reflexivity.
    all: cbn [ones_like asarray]; match goal with |- context [py_div ?a ?b] => destruct (py_div a b) as [v|]; cbn [bind nmul nbin same_answer]; [|reflexivity] end.
    all: rewrite xmul_one; reflexivity.
Qed.

Lemma elementwise_map {A} (q : A -> res xr) (h : A -> xr) l : (forall x, q x = Ok (h x)) -> elementwise q l (Ok (VArr (map h l))).
Proof.
  intros H. left. eexists. split; [reflexivity|]. induction l; constructor; auto.
Qed.

Lemma one_array Q q l : one_position Q q -> elementwise (q o) l (Q o (NpArr l)).
Proof.
  intros HQ. destruct fw_ok as [w W].
  destruct expo_cases as [[e E]|E].
  - assert (A1 := ue_ok o e E). assert (A2 := gg_ok o e E).
    assert (RA : reparg l (NpArr l) (fun t => t)) by (left; rewrite map_id; reflexivity).
    assert (TA : tame (NpArr l)) by (intros c H; discriminate).
    destruct (a_ue_rep o e E U l _ _ RA TA) as (r1 & B1 & _ & F1).
    destruct (a_g_rep o e E U l _ _ RA TA) as (r2 & B2 & _ & F2 & _).
    rewrite map_id in F1, F2. specialize (F1 eq_refl). specialize (F2 eq_refl).
    rewrite F1 in B1. rewrite F2 in B2.
    destruct HQ as [HQ|[rho HQ]]; cbn [In] in HQ;
    repeat (destruct HQ as [HQ|HQ]; [injection HQ as <- <-|]); try destruct HQ;
      unfold a_v_e, a_delta_d, a_delta_m, a_delta_k, a_delta_s, a_over_g, a_shape_d, a_shape_k, a_shape, a_tau_w, a_dissipation;
      rewrite ?B1, ?B2, ?W; cbn [bind nmul nbin ndiv ones_like asarray].
    + apply elementwise_map. exact A1.
    + rewrite !map_map. apply elementwise_map. intros x. unfold qs_v_e. rewrite A2. reflexivity.
    + rewrite !map_map. apply elementwise_map. intros x. unfold qs_delta_d. rewrite A2. reflexivity.
    + rewrite !map_map. apply elementwise_map. intros x. unfold qs_delta_m. rewrite A2. reflexivity.
    + rewrite !map_map. apply elementwise_map. intros x. unfold qs_delta_k. rewrite A2. reflexivity.
    + rewrite !map_map. apply elementwise_map. intros x. unfold qs_delta_s. rewrite A2. reflexivity.
    + unfold qs_shape_d. destruct (py_div (s_eta_d o) (s_eta_m o)) as [v|x] eqn:V; cbn [bind nmul nbin].
      * rewrite map_map. apply elementwise_map. intros x. rewrite xmul_one; reflexivity.
      * right. exists x. auto.
    + unfold qs_shape_k. destruct (py_div (s_eta_k o) (s_eta_m o)) as [v|x] eqn:V; cbn [bind nmul nbin].
      * rewrite map_map. apply elementwise_map. intros x. rewrite xmul_one; reflexivity.
      * right. exists x. auto.
    + rewrite !map_map.
      assert (F3 := full_full l xmul (VArr (map (fun x => (rho * s_nu_ref o * ue o e x)%xr) l)) (VArr (map (fun x => gg o e x) l)) _ _ eq_refl eq_refl).
      cbn [nbin] in F3. rewrite F3. cbn [bind nmul nbin]. rewrite map_map. apply elementwise_map.
      intros x. unfold qs_tau_w. rewrite A1, A2, W. reflexivity.
    + rewrite !map_map.
      assert (F3 := full_full l xmul (VArr (map (fun x => ue o e x) l)) (VArr (map (fun x => ue o e x) l)) _ _ eq_refl eq_refl).
      cbn [nbin] in F3. rewrite F3. cbn [bind nmul nbin].
      match goal with |- context [broadcast xmul (map ?a l) (map ?b l)] =>
        assert (F4 := full_full l xmul (VArr (map a l)) (VArr (map b l)) _ _ eq_refl eq_refl) end.
      cbn [nbin] in F4. rewrite F4. cbn [bind nmul nbin]. rewrite map_map. apply elementwise_map.
      intros x. unfold qs_dissipation. rewrite A1, A2. reflexivity.
  - assert (A1 : forall y, qs_u_e o y = Err ZeroDivisionError) by (intros y; unfold qs_u_e; unfold expo in E; rewrite E; reflexivity).
    assert (A2 : forall y, q_g o y = Err ZeroDivisionError) by (intros y; unfold q_g; rewrite A1; reflexivity).
    assert (B1 : forall y, a_u_e o y = Err ZeroDivisionError) by (intros y; unfold a_u_e; unfold expo in E; rewrite E; reflexivity).
    assert (B2 : forall y, a_g o y = Err ZeroDivisionError) by (intros y; unfold a_g; rewrite B1; reflexivity).
    destruct HQ as [HQ|[rho HQ]]; cbn [In] in HQ;
    repeat (destruct HQ as [HQ|HQ]; [injection HQ as <- <-|]); try destruct HQ;
      unfold a_v_e, a_delta_d, a_delta_m, a_delta_k, a_delta_s, a_over_g, a_shape_d, a_shape_k, a_shape, a_tau_w, a_dissipation;
      rewrite ?B1, ?B2; cbn [bind];
      try (right; eexists; split; [reflexivity|]; intros x;
           unfold qs_v_e, qs_delta_d, qs_delta_m, qs_delta_k, qs_delta_s, qs_tau_w, qs_dissipation; rewrite ?A1, ?A2; reflexivity).
    + unfold qs_shape_d. destruct (py_div (s_eta_d o) (s_eta_m o)) as [v|x] eqn:V; cbn [bind nmul nbin ones_like asarray].
      * rewrite map_map. apply elementwise_map. intros x. rewrite xmul_one; reflexivity.
      * right. exists x. auto.
    + unfold qs_shape_k. destruct (py_div (s_eta_k o) (s_eta_m o)) as [v|x] eqn:V; cbn [bind nmul nbin ones_like asarray].
      * rewrite map_map. apply elementwise_map. intros x. rewrite xmul_one; reflexivity.
      * right. exists x. auto.
Qed.
End One.

(** ** Queries with two positions *)
Lemma points_rep x y ps : points x y = Some ps ->
  reparg ps x fst /\ reparg ps y snd /\ (x = NpArr (map fst ps) \/ y = NpArr (map snd ps)).
Proof.
  assert (M : forall (a : R) (r : list R), map snd (map (fun b => (a, b)) r) = r) by (intros; rewrite map_map, map_id; reflexivity).
  assert (M' : forall (b : R) (l : list R), map fst (map (fun a => (a, b)) l) = l) by (intros; rewrite map_map, map_id; reflexivity).
  assert (K : forall (a : R) (r : list R) p, In p (map (fun b => (a, b)) r) -> fst p = a).
  { intros a r p Hp. apply in_map_iff in Hp. destruct Hp as (b & <- & _). reflexivity. }
  assert (K' : forall (b : R) (l : list R) p, In p (map (fun a => (a, b)) l) -> snd p = b).
  { intros b l p Hp. apply in_map_iff in Hp. destruct Hp as (a & <- & _). reflexivity. }
  assert (LR : forall (a : R) (r : list R), reparg (map (fun b => (a, b)) r) (NpArr r) snd) by (intros; left; rewrite M; reflexivity).
  assert (LL : forall (b : R) (l : list R), reparg (map (fun a => (a, b)) l) (NpArr l) fst) by (intros; left; rewrite M'; reflexivity).
  destruct x as [a|a|l], y as [b|b|r]; cbn [points]; try discriminate.
  - intros H; injection H as <-. split; [right; exists a; split; [auto|apply K]|]. split; [apply LR|]. right. rewrite M. reflexivity.
  - intros H; injection H as <-. split; [right; exists a; split; [auto|apply K]|]. split; [apply LR|]. right. rewrite M. reflexivity.
  - intros H; injection H as <-. split; [apply LL|]. split; [right; exists b; split; [auto|apply K']|]. left. rewrite M'. reflexivity.
  - intros H; injection H as <-. split; [apply LL|]. split; [right; exists b; split; [auto|apply K']|]. left. rewrite M'. reflexivity.
  - destruct (Nat.eqb (List.length l) (List.length r)) eqn:L.
    + intros H; injection H as <-. apply PeanoNat.Nat.eqb_eq in L.
      assert (F : map fst (combine l r) = l /\ map snd (combine l r) = r).
      { clear -L. revert r L. induction l as [|a l IH]; destruct r as [|b r]; cbn; intros L; try discriminate; [auto|].
        destruct (IH r ltac:(congruence)) as [-> ->]. auto. }
      destruct F as [F1 F2]. split; [left; rewrite F1; reflexivity|]. split; [left; rewrite F2; reflexivity|].
      left. rewrite F1. reflexivity.
    + destruct l as [|a [|a' l]].
      * destruct r as [|b [|b' r]]; try discriminate.
        intros H; injection H as <-. split; [apply (LL b [])|]. split; [right; exists b; split; [auto|intros p []]|]. left; reflexivity.
      * intros H; injection H as <-. split; [right; exists a; split; [auto|apply K]|]. split; [apply LR|]. right. rewrite M. reflexivity.
      * destruct r as [|b [|b' r]]; try discriminate.
        intros H; injection H as <-. split; [apply (LL b (a :: a' :: l))|]. split; [right; exists b; split; [auto|apply (K' b (a :: a' :: l))]|]. left. f_equal. symmetry. apply (M' b (a :: a' :: l)).
Qed.

Lemma reparg_asarray {A} (ps : list A) x sel : reparg ps x sel -> reparg ps (asarray x) sel.
Proof.
  intros [->|(c & H & S)]; [left; reflexivity|]. right. exists c. split; [|exact S].
  destruct H as [->|[->| ->]]; cbn; auto.
Qed.
Lemma tame_asarray x : tame (asarray x).
Proof. intros c H. destruct x; discriminate. Qed.
Lemma reparg_rep {A} (ps : list A) y sel : reparg ps y sel ->
  rep ps (of_arg y) (fun p => Fin (sel p)) /\ (y = NpArr (map sel ps) -> full ps (of_arg y) (fun p => Fin (sel p))).
Proof.
  intros [->|(c & H & S)].
  - assert (F : full ps (of_arg (NpArr (map sel ps))) (fun p => Fin (sel p))) by (unfold full; cbn; rewrite map_map; reflexivity).
    split; [left; exact F|auto].
  - split.
    + right. exists (Fin c). split; [destruct H as [->|[->| ->]]; cbn; auto|]. intros p Hp. rewrite (S p Hp). reflexivity.
    + intros ->. unfold full; cbn. rewrite map_map. reflexivity.
Qed.

Section Two.
Variable o : sim.
Hypothesis U : usual o.

Lemma eta_full e (E : expo o = Ok e) x y ps : points x y = Some ps ->
  a_eta o x y = Ok (VArr (map (fun p => (Fin (snd p) * gg o e (fst p))%xr) ps)).
Proof.
  intros HP. destruct (points_rep x y ps HP) as (RX & RY & FF).
  destruct (a_g_rep o e E U ps _ _ (reparg_asarray ps x fst RX) (tame_asarray x)) as (g & G & RG & FG & _).
  destruct (reparg_rep ps _ _ (reparg_asarray ps y snd RY)) as [RY' FY].
  unfold a_eta. rewrite G. cbn [bind]. unfold nmul. destruct FF as [FX|FY'].
  - rewrite (rep_full ps xmul _ _ _ _ RY' (FG ltac:(rewrite FX; reflexivity))). reflexivity.
  - rewrite (full_rep ps xmul _ _ _ _ (FY ltac:(rewrite FY'; reflexivity)) RG). reflexivity.
Qed.

Lemma eta_scalar e (E : expo o = Ok e) x y : q_eta o x y = Ok (Fin y * gg o e x)%xr.
Proof. unfold q_eta. rewrite (gg_ok o e E). reflexivity. Qed.

Lemma nodef : expo o = Err ZeroDivisionError ->
  (forall x, qs_u_e o x = Err ZeroDivisionError) /\ (forall x, q_g o x = Err ZeroDivisionError) /\
  (forall x, a_u_e o x = Err ZeroDivisionError) /\ (forall x, a_g o x = Err ZeroDivisionError).
Proof.
  intros E.
  assert (A1 : forall y, qs_u_e o y = Err ZeroDivisionError) by (intros y; unfold qs_u_e; unfold expo in E; rewrite E; reflexivity).
  assert (A2 : forall y, q_g o y = Err ZeroDivisionError) by (intros y; unfold q_g; rewrite A1; reflexivity).
  assert (B1 : forall y, a_u_e o y = Err ZeroDivisionError) by (intros y; unfold a_u_e; unfold expo in E; rewrite E; reflexivity).
  assert (B2 : forall y, a_g o y = Err ZeroDivisionError) by (intros y; unfold a_g; rewrite B1; reflexivity).
  auto.
Qed.

Definition at_point (q : sim -> R -> R -> res xr) (p : R * R) : res xr := q o (fst p) (snd p).

Lemma eta_array x y ps : points x y = Some ps -> elementwise (at_point q_eta) ps (a_eta o x y).
Proof.
  intros HP. destruct (expo_cases o) as [[e E]|E].
  - rewrite (eta_full e E x y ps HP). apply elementwise_map. intros p. apply eta_scalar. exact E.
  - destruct (nodef E) as (A1 & A2 & B1 & B2). right. exists ZeroDivisionError.
    unfold a_eta, at_point, q_eta. rewrite B2. split; [reflexivity|]. intros p. rewrite A2. reflexivity.
Qed.

Lemma dense_map {A} (y : xr -> triple) k (h : A -> xr) l : l <> [] ->
  dense y k (VArr (map h l)) = Ok (VArr (map (fun p => k (y (h p))) l)).
Proof. intros H. destruct l as [|p l]; [congruence|]. cbn. rewrite map_map. reflexivity. Qed.

Lemma u_array x y ps : tame x -> points x y = Some ps -> ps <> [] -> elementwise (at_point q_u) ps (a_u o x y).
Proof.
  intros T HP NE. destruct (expo_cases o) as [[e E]|E].
  - destruct (points_rep x y ps HP) as (RX & _ & _).
    destruct (a_ue_rep o e E U ps x fst RX T) as (r & Er & RR & _).
    unfold a_u. rewrite Er, (eta_full e E x y ps HP). cbn [bind]. unfold a_f_p.
    destruct (s_f o) as [f|] eqn:F.
    + rewrite (dense_map f t1 _ ps NE). cbn [bind]. unfold nmul.
      rewrite (rep_full ps xmul r _ _ _ RR eq_refl). apply elementwise_map. intros p. unfold at_point, q_u.
      rewrite (ue_ok o e E), (eta_scalar e E). cbn [bind]. unfold q_f_p. rewrite F. reflexivity.
    + right. exists ValueError. split; [reflexivity|]. intros p. unfold at_point, q_u.
      rewrite (ue_ok o e E), (eta_scalar e E). cbn [bind]. unfold q_f_p. rewrite F. reflexivity.
  - destruct (nodef E) as (A1 & A2 & B1 & B2). right. exists ZeroDivisionError.
    unfold a_u, at_point, q_u. rewrite B1. split; [reflexivity|]. intros p. rewrite A1. reflexivity.
Qed.

Lemma v_array x y ps : tame x -> points x y = Some ps -> ps <> [] -> elementwise (at_point q_v) ps (a_v o x y).
Proof.
  intros T HP NE. destruct (expo_cases o) as [[e E]|E].
  - destruct (points_rep x y ps HP) as (RX & _ & _).
    destruct (a_g_rep o e E U ps x fst RX T) as (r & Er & RR & _).
    destruct (rep_rep ps xmul (VPy (s_alpha o * s_nu_ref o)%xr) r _ _ (rep_py ps _) RR) as (p1 & E1 & R1).
    unfold a_v. rewrite Er, (eta_full e E x y ps HP). cbn [bind]. unfold nmul at 1. rewrite E1. cbn [bind]. unfold a_f, a_f_p.
    assert (BA : exists ba, py_div (s_beta o) (s_alpha o) = Ok ba).
    { destruct U as (-> & _). unfold py_div. cbn [xeqb]. rewrite Reqb_false by lra. eauto. }
    destruct BA as [ba BA].
    destruct (s_f o) as [f|] eqn:F.
    + rewrite (dense_map f t0 _ ps NE), (dense_map f t1 _ ps NE), BA. cbn [bind]. unfold nadd, nmul.
      rewrite (rep_full ps xmul (VPy (ba - Fin 1)%xr) _ _ _ (rep_py ps _) eq_refl). cbn [bind].
      rewrite (full_full ps xmul _ _ _ _ eq_refl eq_refl). cbn [bind].
      rewrite (full_full ps xadd _ _ _ _ eq_refl eq_refl). cbn [bind].
      rewrite (rep_full ps xmul p1 _ _ _ R1 eq_refl). cbn [bind nneg]. rewrite map_map.
      apply elementwise_map. intros p. unfold at_point, q_v.
      rewrite (gg_ok o e E), (eta_scalar e E), BA. cbn [bind]. unfold q_f, q_f_p. rewrite F. reflexivity.
    + right. exists ValueError. split; [reflexivity|]. intros p. unfold at_point, q_v.
      rewrite (gg_ok o e E), (eta_scalar e E). cbn [bind]. unfold q_f. rewrite F. reflexivity.
  - destruct (nodef E) as (A1 & A2 & B1 & B2). right. exists ZeroDivisionError.
    unfold a_v, at_point, q_v, a_eta, q_eta. rewrite B2. split; [reflexivity|]. intros p. rewrite A2. reflexivity.
Qed.

(** Arrays that do not fit, and arrays without elements. *)
Lemma misfit e (E : expo o = Ok e) l r : points (NpArr l) (NpArr r) = None ->
  a_eta o (NpArr l) (NpArr r) = Err ValueError /\ a_u o (NpArr l) (NpArr r) = Err ValueError /\
  a_v o (NpArr l) (NpArr r) = Err ValueError.
Proof.
  intros HP.
  assert (RA : reparg l (NpArr l) (fun t => t)) by (left; rewrite map_id; reflexivity).
  assert (TA : tame (NpArr l)) by (intros c H; discriminate).
  destruct (a_ue_rep o e E U l _ _ RA TA) as (r1 & B1 & _ & F1).
  destruct (a_g_rep o e E U l _ _ RA TA) as (r2 & B2 & _ & F2 & _).
  rewrite map_id in F1, F2. specialize (F1 eq_refl). specialize (F2 eq_refl).
  assert (H : a_eta o (NpArr l) (NpArr r) = Err ValueError).
  { unfold a_eta. cbn [asarray]. rewrite B2. cbn [bind of_arg]. rewrite F2. cbn [nmul nbin]. unfold broadcast.
    rewrite !map_length. cbn [points] in HP. rewrite PeanoNat.Nat.eqb_sym.
    destruct (Nat.eqb (List.length l) (List.length r)); [discriminate|].
    destruct l as [|a [|a' l]], r as [|b [|b' r]]; try discriminate; reflexivity. }
  split; [exact H|]. unfold a_u, a_v. rewrite B1, H. split; reflexivity.
Qed.
Lemma no_points e (E : expo o = Ok e) x y : tame x -> points x y = Some [] ->
  a_eta o x y = Ok (VArr []) /\ a_u o x y = Err ValueError /\ a_v o x y = Err ValueError.
Proof.
  intros T HP. destruct (points_rep x y [] HP) as (RX & _ & _).
  destruct (a_ue_rep o e E U [] x fst RX T) as (r1 & B1 & _).
  destruct (a_g_rep o e E U [] x fst RX T) as (r2 & B2 & RR & _ & _).
  destruct (rep_rep [] xmul (VPy (s_alpha o * s_nu_ref o)%xr) r2 _ _ (rep_py [] _) RR) as (p1 & E1 & R1).
  assert (H := eta_full e E x y [] HP). cbn [map] in H. split; [exact H|].
  unfold a_u, a_v. rewrite B1, H, B2. cbn [bind]. unfold a_f_p, a_f, nmul at 2. rewrite E1. cbn [bind].
  destruct (s_f o); split; reflexivity.
Qed.

(** Two scalar positions. *)
Lemma two_scalar e (E : expo o = Ok e) x y x' y' :
  (x = NpNum x' \/ x = PyNum x' /\ 0 < x') -> (y = NpNum y' \/ y = PyNum y') ->
  same_answer (q_eta o x' y') (a_eta o x y) /\ same_answer (q_u o x' y') (a_u o x y) /\ same_answer (q_v o x' y') (a_v o x y).
Proof.
  intros HX HY.
  assert (H : a_eta o x y = Ok (VNp (Fin y' * gg o e x')%xr)).
  { unfold a_eta. destruct HX as [->|[-> _]], HY as [->| ->]; cbn [asarray]; rewrite (np_g o e E); reflexivity. }
  assert (G : a_g o x = Ok (VNp (gg o e x'))) by (destruct HX as [->|[-> P]]; [apply np_g|apply py_g]; assumption).
  assert (UE : a_u_e o x = Ok (VNp (ue o e x')) \/ a_u_e o x = Ok (VPy (ue o e x'))).
  { destruct HX as [->|[-> P]]; [left; apply np_ue|right; apply py_ue]; assumption. }
  unfold a_u, a_v, q_u, q_v. rewrite H, G, (ue_ok o e E), (eta_scalar e E), (gg_ok o e E). cbn [bind].
  unfold a_f, a_f_p, q_f, q_f_p. split; [reflexivity|]. split.
  - destruct UE as [-> | ->]; cbn [bind]; destruct (s_f o); reflexivity.
  - cbn [nmul nbin bind]. destruct (s_f o); [|reflexivity]. cbn [dense bind].
    destruct (py_div (s_beta o) (s_alpha o)); reflexivity.
Qed.
Lemma two_scalar_all x y x' y' :
  (x = NpNum x' \/ x = PyNum x' /\ 0 < x') -> (y = NpNum y' \/ y = PyNum y') ->
  same_answer (q_eta o x' y') (a_eta o x y) /\ same_answer (q_u o x' y') (a_u o x y) /\ same_answer (q_v o x' y') (a_v o x y).
Proof.
  intros HX HY. destruct (expo_cases o) as [[e E]|E]; [apply (two_scalar e E); assumption|].
  destruct (nodef E) as (A1 & A2 & B1 & B2). unfold a_u, a_v, a_eta, q_u, q_v, q_eta. rewrite A1, A2, B1, B2. repeat split; reflexivity.
Qed.

Lemma expo_ok : s_beta o <> Fin 2 -> exists b, s_beta o = Fin b /\ expo o = Ok (Fin (b / (2 - b))).
Proof.
  intros H. destruct U as (A & (b & B) & _). exists b. split; [exact B|]. unfold expo. rewrite A, B, xmul_fin, xsub_fin.
  unfold py_div. cbn [xeqb]. assert (b <> 2) by (intros ->; congruence).
  rewrite Reqb_false by lra. rewrite xdiv_fin by lra. do 2 f_equal. f_equal. lra.
Qed.

(** Python floats at and below zero. *)
Lemma py_zero : s_beta o = Fin 0 ->
  a_g o (PyNum 0) = Err ZeroDivisionError /\ exists g, a_g o (NpNum 0) = Ok (VNp g).
Proof.
  intros B. destruct (expo_ok ltac:(rewrite B; intros Q; injection Q; lra)) as (b & B' & E).
  rewrite B in B'. injection B' as <-.
  split; [|eexists; apply (np_g o _ E)].
  destruct (den_pos o _ E U) as (d & D & _).
  unfold a_g, a_u_e. unfold expo in E. rewrite E. cbn [bind]. change (of_arg (PyNum 0)) with (VPy (Fin 0)). cbn [npow].
  destruct (Req_EM_T 0 0); [|lra]. destruct (Rlt_dec (0 / (2 - 0)) 0) as [L|_]; [unfold Rdiv in L; lra|].
  cbn [bind nmul nbin]. fold (den o). rewrite D, xmul_fin. cbn [ndiv]. unfold py_div. cbn [xeqb].
  rewrite Reqb_true by lra. reflexivity.
Qed.
Lemma py_negative b x : s_beta o = Fin b -> b <> 2 -> frac_part (b / (2 - b)) <> 0 -> x < 0 ->
  a_u_e o (PyNum x) = Ok VCx /\ a_u_e o (NpNum x) = Ok (VNp NaN).
Proof.
  intros B NB FP Hx. destruct (expo_ok ltac:(rewrite B; intros Q; injection Q; lra)) as (b' & B' & E).
  rewrite B in B'. injection B' as <-. unfold a_u_e. unfold expo in E. rewrite E. cbn [bind].
  change (of_arg (PyNum x)) with (VPy (Fin x)). cbn [npow of_arg bind].
  destruct (Req_EM_T x 0); [lra|]. destruct (Rlt_dec x 0); [|lra]. destruct (Req_EM_T (frac_part (b / (2 - b))) 0); [contradiction|].
  split; [reflexivity|]. destruct U as (_ & _ & _ & (u & UU & _)). rewrite UU. cbn [nmul nbin].
  assert (V : xpow (Fin x) (Fin (b / (2 - b))) = NaN).
  { unfold xpow. destruct (Req_EM_T (b / (2 - b)) 0) as [Q|_]; [rewrite Q, fp_R0 in FP; congruence|].
    destruct (Rlt_dec 0 x); [lra|]. destruct (Req_EM_T x 0); [lra|].
    destruct (Req_EM_T (frac_part (b / (2 - b))) 0); [contradiction|reflexivity]. }
  rewrite V. reflexivity.
Qed.
Lemma py_zero_decelerating b : s_beta o = Fin b -> b < 0 ->
  a_u_e o (PyNum 0) = Err ZeroDivisionError /\ a_u_e o (NpNum 0) = Ok (VNp PInf).
Proof.
  intros B NB. destruct (expo_ok ltac:(rewrite B; intros Q; injection Q; lra)) as (b' & B' & E).
  rewrite B in B'. injection B' as <-. unfold a_u_e. unfold expo in E. rewrite E. cbn [bind].
  assert (N : b / (2 - b) < 0).
  { assert (0 < / (2 - b)) by (apply Rinv_0_lt_compat; lra). unfold Rdiv. nra. }
  change (of_arg (PyNum 0)) with (VPy (Fin 0)). cbn [npow of_arg bind].
  destruct (Req_EM_T 0 0); [|lra]. destruct (Rlt_dec (b / (2 - b)) 0); [|lra].
  split; [reflexivity|]. destruct U as (_ & _ & _ & (u & UU & Pu)). rewrite UU. cbn [nmul nbin].
  assert (V : xpow (Fin 0) (Fin (b / (2 - b))) = PInf).
  { unfold xpow. destruct (Req_EM_T (b / (2 - b)) 0); [lra|]. destruct (Rlt_dec 0 0); [lra|]. destruct (Req_EM_T 0 0); [|lra].
    destruct (Rlt_dec 0 (b / (2 - b))); [lra|reflexivity]. }
  rewrite V. cbn [xmul]. unfold inf_times. destruct (Rlt_dec 0 u); [reflexivity|lra].
Qed.
End Two.
