(** * ProofsArrhenius: C45, C46, C57 *)
From Verif Require Import Base ModelArrhenius SpecArrhenius SpecRun.
From Coq Require Import Reals Lra Lia.

(** *** C45 *)
Section C45.
  Open Scope R_scope.
  Lemma arr_form k T Ea pre : 0 < k -> 0 < T -> arrhenius k T Ea pre = pre * exp (- (Ea / k * / T)).
  Proof. intros Hk HT. unfold arrhenius. do 2 f_equal. field. lra. Qed.
  Lemma super_form k T Ea pre T0 : 0 < k -> T0 < T -> super_arrhenius k T Ea pre T0 = pre * exp (- (Ea / k * / (T - T0))).
  Proof. intros Hk HT. unfold super_arrhenius. do 2 f_equal. field. lra. Qed.
  Lemma inv_lt T1 T2 : 0 < T1 -> T1 < T2 -> / T2 < / T1.
  Proof. intros H1 H2. apply Rinv_lt_contravar; [apply Rmult_lt_0_compat; lra|assumption]. Qed.
  Lemma exp_lt_scaled c pre a b : 0 < pre -> 0 < c -> b < a -> pre * exp (- (c * a)) < pre * exp (- (c * b)).
  Proof. intros Hp Hc H. apply Rmult_lt_compat_l; [assumption|]. apply exp_increasing. apply Ropp_lt_contravar, Rmult_lt_compat_l; lra. Qed.
  Lemma ratio_pos a b : 0 < a -> 0 < b -> 0 < a / b.
  Proof. intros. apply Rdiv_lt_0_compat; assumption. Qed.
  Lemma C45_range_proof k T Ea pre : 0 < k -> 0 < T -> 0 < Ea -> 0 < pre -> 0 < arrhenius k T Ea pre < pre.
  Proof.
    intros Hk HT HE Hp. rewrite arr_form by assumption. split.
    - apply Rmult_lt_0_compat; [assumption|apply exp_pos].
    - rewrite <- (Rmult_1_r pre) at 2. apply Rmult_lt_compat_l; [assumption|]. rewrite <- exp_0. apply exp_increasing.
      assert (0 < Ea / k * / T) by (apply Rmult_lt_0_compat; [now apply ratio_pos|now apply Rinv_0_lt_compat]). lra.
  Qed.
  Lemma C45_temperature_proof k T1 T2 Ea pre : 0 < k -> 0 < T1 -> T1 < T2 -> 0 < Ea -> 0 < pre -> arrhenius k T1 Ea pre < arrhenius k T2 Ea pre.
  Proof. intros Hk H1 H2 HE Hp. rewrite !arr_form by lra. apply exp_lt_scaled; [assumption|now apply ratio_pos|now apply inv_lt]. Qed.
  Lemma C45_energy_proof k T E1 E2 pre : 0 < k -> 0 < T -> E1 < E2 -> 0 < pre -> arrhenius k T E2 pre < arrhenius k T E1 pre.
  Proof.
    intros Hk HT HE Hp. rewrite !arr_form by lra. apply Rmult_lt_compat_l; [assumption|]. apply exp_increasing.
    apply Ropp_lt_contravar, Rmult_lt_compat_r; [now apply Rinv_0_lt_compat|]. apply Rmult_lt_compat_r; [now apply Rinv_0_lt_compat|assumption].
  Qed.
  Lemma C45_prefactor_proof k T Ea pre c : arrhenius k T Ea (c * pre) = c * arrhenius k T Ea pre.
  Proof. unfold arrhenius. ring. Qed.
  Lemma C45_log_proof k T Ea pre : 0 < k -> 0 < T -> 0 < pre -> ln (arrhenius k T Ea pre) = ln pre + (- Ea / k) * (1 / T).
  Proof.
    intros Hk HT Hp. rewrite arr_form by assumption. rewrite ln_mult; [|assumption|apply exp_pos]. rewrite ln_exp. field. lra.
  Qed.
  Lemma C45_recover_proof k T1 T2 Ea pre : 0 < k -> 0 < T1 -> 0 < T2 -> T1 <> T2 -> 0 < pre ->
    Ea = k * (ln (arrhenius k T1 Ea pre) - ln (arrhenius k T2 Ea pre)) / (1 / T2 - 1 / T1).
  Proof.
    intros Hk H1 H2 Hne Hp. rewrite !C45_log_proof by assumption. field. repeat split; try lra.

  Qed.
  Lemma C45_super_zero_proof k T Ea pre : super_arrhenius k T Ea pre 0 = arrhenius k T Ea pre.
  Proof. unfold super_arrhenius, arrhenius. now rewrite Rminus_0_r. Qed.
  Lemma C45_super_below_proof k T Ea pre T0 : 0 < k -> 0 < T0 -> T0 < T -> 0 < Ea -> 0 < pre ->
    0 < super_arrhenius k T Ea pre T0 < arrhenius k T Ea pre.
  Proof.
    intros Hk H0 H1 HE Hp. rewrite super_form, arr_form by lra. split; [apply Rmult_lt_0_compat; [assumption|apply exp_pos]|].
    apply exp_lt_scaled; [assumption|now apply ratio_pos|]. apply inv_lt; lra.
  Qed.
  Lemma C45_super_shift_proof k T Ea pre T0 : super_arrhenius k T Ea pre T0 = arrhenius k (T - T0) Ea pre.
  Proof. reflexivity. Qed.
  (** Both limits. *)
  Lemma C45_hot_proof k Ea pre eps : 0 < k -> 0 < Ea -> 0 < pre -> 0 < eps -> exists T1, 0 < T1 /\ forall T, T1 < T -> pre - eps < arrhenius k T Ea pre.
  Proof.
    intros Hk HE Hp He. set (e := Rmin eps (pre / 2)). assert (0 < e <= pre / 2 /\ e <= eps).
    { unfold e. split; [split|]; [apply Rmin_glb_lt; lra|apply Rmin_r|apply Rmin_l]. }
    assert (HL : ln (1 - e / pre) < 0).
    { rewrite <- ln_1. apply ln_increasing.
      - assert (e / pre <= 1 / 2); [|lra]. apply Rmult_le_reg_r with pre; [assumption|]. unfold Rdiv. rewrite Rmult_assoc, Rinv_l by lra. lra.
      - assert (0 < e / pre) by (apply ratio_pos; lra). lra. }
    assert (HP : 0 < 1 - e / pre).
    { assert (e / pre <= 1 / 2); [|lra]. apply Rmult_le_reg_r with pre; [assumption|]. unfold Rdiv. rewrite Rmult_assoc, Rinv_l by lra. lra. }
    exists (Ea / k / (- ln (1 - e / pre))). split; [apply ratio_pos; [now apply ratio_pos|lra]|]. intros T HT.
    assert (HT0 : 0 < T) by (eapply Rlt_trans; [|exact HT]; apply ratio_pos; [now apply ratio_pos|lra]).
    rewrite arr_form by assumption.
    assert (A : ln (1 - e / pre) < - (Ea / k * / T)).
    { apply Ropp_lt_cancel. rewrite Ropp_involutive. apply Rmult_lt_reg_r with T; [assumption|].
      rewrite Rmult_assoc, Rinv_l, Rmult_1_r by lra. apply Rmult_lt_reg_r with (/ (- ln (1 - e / pre))); [apply Rinv_0_lt_compat; lra|].
      replace (- ln (1 - e / pre) * T * / - ln (1 - e / pre)) with T; [exact HT|].
      set (q := ln (1 - e / pre)) in *. field. lra. }
    apply exp_increasing in A. rewrite exp_ln in A by assumption.
    apply (Rmult_lt_compat_l pre) in A; [|assumption]. replace (pre * (1 - e / pre)) with (pre - e) in A by (field; lra). lra.
  Qed.
  Lemma C45_cold_proof k Ea pre eps : 0 < k -> 0 < Ea -> 0 < pre -> 0 < eps -> exists T1, 0 < T1 /\ forall T, 0 < T -> T < T1 -> arrhenius k T Ea pre < eps.
  Proof.
    intros Hk HE Hp He. set (e := Rmin eps (pre / 2)). assert (B : 0 < e <= pre / 2 /\ e <= eps).
    { unfold e. split; [split|]; [apply Rmin_glb_lt; lra|apply Rmin_r|apply Rmin_l]. }
    assert (HQ : 0 < e / pre) by (apply ratio_pos; lra).
    assert (HL : ln (e / pre) < 0).
    { rewrite <- ln_1. apply ln_increasing; [assumption|]. assert (e / pre <= 1 / 2); [|lra]. apply Rmult_le_reg_r with pre; [assumption|]. unfold Rdiv. rewrite Rmult_assoc, Rinv_l by lra. lra. }
    exists (Ea / k / (- ln (e / pre))). split; [apply ratio_pos; [now apply ratio_pos|lra]|]. intros T HT0 HT.
    rewrite arr_form by assumption.
    assert (A : - (Ea / k * / T) < ln (e / pre)).
    { apply Ropp_lt_cancel. rewrite Ropp_involutive. apply Rmult_lt_reg_r with T; [assumption|].
      rewrite Rmult_assoc, Rinv_l, Rmult_1_r by lra. apply Rmult_lt_reg_r with (/ (- ln (e / pre))); [apply Rinv_0_lt_compat; lra|].
      replace (- ln (e / pre) * T * / - ln (e / pre)) with T; [exact HT|].
      set (q := ln (e / pre)) in *. field. lra. }
    apply exp_increasing in A. rewrite exp_ln in A by assumption.
    apply (Rmult_lt_compat_l pre) in A; [|assumption]. replace (pre * (e / pre)) with e in A by (field; lra). lra.
  Qed.

  (** *** C57 *)
  Lemma C57_length_proof k T chain : length (extrapolate k T chain) = length chain.
  Proof. unfold extrapolate. now rewrite map_length. Qed.
  Lemma C57_measured_proof k temps chain i T : nth_error temps i = Some T -> nth_error (arrhenius_distribution k temps chain) i = Some (extrapolate k T chain).
  Proof. intros H. unfold arrhenius_distribution. exact (map_nth_error (fun T : R => extrapolate k T chain) i temps H). Qed.
  Lemma C57_range_proof k T (chain : list (R * R)) : 0 < k -> 0 < T -> Forall (fun s => 0 < fst s /\ 0 < snd s) chain ->
    Forall2 (fun d s => 0 < d < snd s) (extrapolate k T chain) chain.
  Proof. intros Hk HT H. induction H as [|s l [A B] _ IH]; cbn; constructor; [now apply C45_range_proof|exact IH]. Qed.
  Lemma C57_monotone_proof k T1 T2 (chain : list (R * R)) : 0 < k -> 0 < T1 -> T1 < T2 -> Forall (fun s => 0 < fst s /\ 0 < snd s) chain ->
    Forall2 Rlt (extrapolate k T1 chain) (extrapolate k T2 chain).
  Proof. intros Hk H1 H2 H. induction H as [|s l [A B] _ IH]; cbn; constructor; [now apply C45_temperature_proof|exact IH]. Qed.
  Lemma C57_super_proof k T (chain : list (R * R * R)) : 0 < k -> Forall (fun s => 0 < fst (fst s) /\ 0 < snd (fst s) /\ 0 < snd s < T) chain ->
    Forall2 (fun d s => 0 < d < arrhenius k T (fst (fst s)) (snd (fst s))) (super_extrapolate k T chain) chain.
  Proof.
    intros Hk H. induction H as [|s l (A & B & C & D) _ IH]; cbn; constructor; [now apply C45_super_below_proof|exact IH].
  Qed.
End C45.

(** *** C46 *)
Section C46.
  Context {A : Type} (zero one big : A).
  Notation init := (super_init zero).
  Notation hist := (super_history zero).
  Notation dflt := (default_bounds zero one big).
  Definition bounds_with (t : option A) : list (par_bound A) := [(zero, Some one); (zero, Some big); (zero, t)].
  Lemma super_list_other h addr t n : n <> addr -> fst (super_list zero h addr t) n = h n.
  Proof.
    intros H. unfold super_list. destruct (py_index (h addr) 2) as [[? [?|]]|]; try reflexivity.
    destruct (py_index t 0); [|reflexivity]. cbn. unfold write. destruct (Nat.eqb_spec n addr); [contradiction|reflexivity].
  Qed.
  Lemma init_default_some h t v : h default_list = bounds_with (Some v) -> init h BDefault t = (h, Ok (bounds_with (Some v))).
  Proof. intros H. cbn. unfold super_list. rewrite H. reflexivity. Qed.
  Lemma init_default_none h t0 t : h default_list = bounds_with None -> init h BDefault (t0 :: t) = (write h default_list (bounds_with (Some t0)), Ok (bounds_with (Some t0))).
  Proof. intros H. cbn. unfold super_list. rewrite H. reflexivity. Qed.
  Lemma init_default_empty h : h default_list = bounds_with None -> init h BDefault [] = (h, Raise IndexError).
  Proof. intros H. cbn. unfold super_list. rewrite H. reflexivity. Qed.
  Lemma init_own h a t : (forall addr, a = BList addr -> addr <> default_list) -> a <> BDefault -> fst (init h a t) default_list = h default_list.
  Proof.
    intros Ha Hd. destruct a as [|addr|l]; [congruence| |reflexivity]. cbn. apply super_list_other. apply not_eq_sym. now apply Ha.
  Qed.
  Lemma history_default calls : forall h v, own_lists calls -> h default_list = bounds_with v ->
    fst (hist h calls) default_list = bounds_with (match v with Some x => Some x | None => first_default calls end).
  Proof.
    induction calls as [|[a t] calls IH]; intros h v HO H; cbn [super_history first_default].
    - cbn. destruct v; exact H.
    - inversion HO as [|? ? H1 H2]; subst. cbn [fst] in H1. destruct a as [|addr|l].
      + destruct v as [x|].
        * rewrite (init_default_some _ _ _ H). specialize (IH h (Some x) H2 H). destruct (hist h calls). exact IH.
        * destruct t as [|t0 t].
          -- rewrite (init_default_empty _ H). specialize (IH h None H2 H). destruct (hist h calls). exact IH.
          -- rewrite (init_default_none _ _ _ H). specialize (IH (write h default_list (bounds_with (Some t0))) (Some t0) H2 eq_refl).
             destruct (hist _ calls). exact IH.
      + assert (K := init_own h (BList addr) t H1 ltac:(discriminate)). destruct (init h (BList addr) t) as [h1 r]. cbn [fst] in K.
        specialize (IH h1 v H2 (eq_trans K H)). destruct (hist h1 calls). cbn [fst] in *. destruct t; exact IH.
      + cbn [super_init]. specialize (IH h v H2 H). destruct (hist h calls). cbn [fst] in *. destruct t; exact IH.
  Qed.
  Lemma hist_app calls c : forall h, snd (hist h (calls ++ [c])) = (snd (hist h calls) ++ [snd (init (fst (hist h calls)) (fst c) (snd c))])%list.
  Proof.
    induction calls as [|[a t] calls IH]; intros h; cbn [app super_history].
    - destruct c as [a t]. cbn [fst snd]. destruct (init h a t). reflexivity.
    - destruct (init h a t) as [h1 r]. specialize (IH h1). destruct (hist h1 (calls ++ [c])), (hist h1 calls). cbn [snd fst] in *. now rewrite IH.
  Qed.
  (** The bounds of a call without `bounds` after any history. *)
  Lemma C46_history_proof user calls t0 t : own_lists calls ->
    snd (init (fst (hist (fresh_heap zero one big user) calls)) BDefault (t0 :: t))
    = Ok (bounds_with (Some (match first_default calls with Some x => x | None => t0 end))).
  Proof.
    intros HO. assert (K := history_default calls (fresh_heap zero one big user) None HO eq_refl). cbn beta iota in K.
    destruct (first_default calls) as [x|].
    - now rewrite (init_default_some _ _ _ K).
    - now rewrite (init_default_none _ _ _ K).
  Qed.
  Lemma C46_own_proof user calls t0 t : own_lists calls -> first_default calls = None ->
    snd (init (fst (hist (fresh_heap zero one big user) calls)) BDefault (t0 :: t)) = Ok [(zero, Some one); (zero, Some big); (zero, Some t0)].
  Proof. intros H1 H2. rewrite C46_history_proof by assumption. now rewrite H2. Qed.
  Lemma C46_refuted_proof user (a b : A) : a <> b -> exists calls t, own_lists calls
    /\ snd (init (fst (hist (fresh_heap zero one big user) calls)) BDefault t) = Ok [(zero, Some one); (zero, Some big); (zero, Some a)]
    /\ t = [b] /\ calls = [(BDefault, [a])].
  Proof.
    intros H. exists [(BDefault, [a])], [b]. split; [constructor; [intros ? E; discriminate|constructor]|]. repeat split.
  Qed.
  (** A list passed by the caller is modified and keeps the first temperature. *)
  Lemma C46_list_proof h addr x y l t0 t : h addr = x :: y :: (l, None) :: nil ->
    let '(h1, r) := init h (BList addr) (t0 :: t) in
    r = Ok [x; y; (zero, Some t0)] /\ h1 addr = [x; y; (zero, Some t0)] /\ forall t', init h1 (BList addr) t' = (h1, Ok [x; y; (zero, Some t0)]).
  Proof.
    intros H. cbn [super_init]. unfold super_list. rewrite H. cbn.
    assert (K : write h addr [x; y; (zero, Some t0)] addr = [x; y; (zero, Some t0)]) by (unfold write; now rewrite Nat.eqb_refl).
    split; [reflexivity|]. split; [exact K|]. intros t'. rewrite K. reflexivity.
  Qed.
  Lemma C46_tuple_proof h x y l t0 t : init h (BTuple [x; y; (l, None)]) (t0 :: t) = (h, Raise TypeError).
  Proof. reflexivity. Qed.
  Lemma C46_explicit_proof h x y l u t : init h (BTuple [x; y; (l, Some u)]) t = (h, Ok [x; y; (l, Some u)]).
  Proof. reflexivity. Qed.
End C46.

(** *** C45: units *)
Lemma C45_units_proof : forall gas_R n_a ev T Ea pre T0 : R, (0 < gas_R -> 0 < n_a -> 0 < ev -> T <> 0 -> T <> T0 ->
  arrhenius (R_eV gas_R n_a ev) T Ea pre = pre * exp (- (Ea * ev * n_a / (gas_R * T))) /\
  super_arrhenius (R_eV gas_R n_a ev) T Ea pre T0 = pre * exp (- (Ea * ev * n_a / (gas_R * (T - T0)))))%R.
Proof.
  intros gR na ev T Ea pre T0 Hg Hn He HT HT0; unfold arrhenius, super_arrhenius, R_eV; split; f_equal; f_equal; field; repeat split; lra.
Qed.
Lemma C45_constant_proof : (Rabs (R_eV 8.314462618 6.02214076e23 1.602176634e-19 - 8.617333262e-5) <= 1e-13)%R.
Proof.
  unfold R_eV; apply Rabs_le.
  assert (0 < 6.02214076e23 * 1.602176634e-19)%R by lra.
  replace (8.314462618 / 6.02214076e23 / 1.602176634e-19)%R with (8.314462618 / (6.02214076e23 * 1.602176634e-19))%R by (field; split; lra).
  split.
  - assert (8.617333262e-5 - 1e-13 <= 8.314462618 / (6.02214076e23 * 1.602176634e-19))%R; [|lra].
    apply Rmult_le_reg_r with (6.02214076e23 * 1.602176634e-19)%R; [lra|]. lra.
  - assert (8.314462618 / (6.02214076e23 * 1.602176634e-19) <= 8.617333262e-5 + 1e-13)%R; [|lra].
    apply Rmult_le_reg_r with (6.02214076e23 * 1.602176634e-19)%R; [lra|]. unfold Rdiv at 1. rewrite Rmult_assoc, Rinv_l by lra. lra.
Qed.
