(** * ProofsStats2: counterexamples for C27, C28, C30; C32, C51 *)
From Verif Require Import Base Spec ModelParser ModelDiffusion ModelHdf ModelAnalyzer SpecStats Lemmas ProofsBoot ProofsStats SpecRun.
From Coq Require Import Reals Lra Lia.
Open Scope Z_scope.

Lemma firstn_nth_error {T} k (l : list T) i x : nth_error (firstn k l) i = Some x -> nth_error l i = Some x.
Proof.
  intros H. rewrite <- (firstn_skipn k l). rewrite nth_error_app1; [exact H|]. apply nth_error_Some. congruence.
Qed.

(** ** C28, C27 for sub_sample_dt = 2 *)
Definition hop_arr : Arr R := (mkArr 2 [[mkV 0 0 0; mkV 1 0 0]])%R.
Definition hop_disps : list (Arr R) := [hop_arr; hop_arr; hop_arr].
Section Refuted.
  Context {G Seed RS : Type} (X : Ext R G Seed RS) (g : G).

  Lemma hop_run : exists b, msd_bootstrap X (demo_boot 2 "xyz") [1;2;3]%R hop_disps [4;2;1]%R g = Ok (b, g)
    /\ b_dt b = [1;3]%R /\ b_n_o b = [4;2]%R /\ b_v b = [1/8;1/4]%R.
  Proof.
    destruct (msd_total X (demo_boot 2 "xyz") [1;2;3]%R hop_disps [4;2;1]%R all_axes g) as (b & E).
    1:{ reflexivity. } 1:{ reflexivity. } 1:{ exact names_xyz. } 1:{ discriminate. }
    1:{ repeat constructor. } 1:{ cbn; lia. } 1:{ cbn; lia. }
    exists b. split; [exact E|].
    destruct (msd_run X (demo_boot 2 "xyz") _ _ _ _ _ _ eq_refl E) as (axes & shown & H1 & H2 & H3 & H4 & H5 & HR).
    assert (axes = all_axes) by (eapply names_unique; [exact H1|exact names_xyz]). subst axes.
    cbn [demo_boot u_sub_sample_dt] in H3, H4. change (Z.to_nat 2) with 2%nat in H3, H4.
    assert (EU : b_displacements b = [hop_arr; hop_arr]).
    { eapply sub_sample_unique; [exact H3|]. intros [|[|i]]; try reflexivity.
      cbn [Nat.mul nth_error]. rewrite !(proj2 (nth_error_None _ _)); cbn; try lia; reflexivity. }
    assert (ET : b_delta_t b = [1;3]%R).
    { eapply sub_sample_unique; [exact H4|]. intros [|[|i]]; try reflexivity.
      cbn [Nat.mul nth_error]. rewrite !(proj2 (nth_error_None _ _)); cbn; try lia; reflexivity. }
    assert (ES : shown = [hop_arr; hop_arr]).
    { rewrite <- EU. eapply leading_all; [|exact (br_shown _ _ _ _ _ _ _ _ _ _ HR)]. rewrite EU. repeat constructor. }
    rewrite ES in H5, HR. split; [|split; [exact H5|]].
    - rewrite (br_dt _ _ _ _ _ _ _ _ _ _ HR), ET. reflexivity.
    - assert (L := br_v_len _ _ _ _ _ _ _ _ _ _ HR).
      destruct (br_v _ _ _ _ _ _ _ _ _ _ HR eq_refl 0%nat hop_arr eq_refl) as (no & N1 & N2).
      destruct (br_v _ _ _ _ _ _ _ _ _ _ HR eq_refl 1%nat hop_arr eq_refl) as (no' & N1' & N2').
      cbn in N1, N1'. injection N1 as <-. injection N1' as <-.
      destruct (b_v b) as [|v0 [|v1 [|]]]; cbn in L; try discriminate. cbn [nth_error] in N2, N2'.
      injection N2 as ->. injection N2' as ->.
      assert (SV : sample_variance (msd_values all_axes hop_arr) = (1/2)%R).
      { unfold sample_variance, msd_values, average, rsum, sqlen. cbn. unfold rsum; cbn. field. }
      rewrite SV. f_equal; [field|f_equal; field].
  Qed.
End Refuted.



Lemma C28_refuted_proof : exists u dts disps n_o, u_block u = false /\ u_sub_sample_dt u = 2
  /\ length dts = length disps /\ length n_o = length disps /\ Forall (fun x => 0 < x)%R n_o
  /\ forall (G Seed RS : Type) (X : Ext R G Seed RS) (g : G), exists b, msd_bootstrap X u dts disps n_o g = Ok (b, g)
      /\ ~ variance_claim 2 (pystr_text (u_dimension u)) disps n_o b.
Proof.
  exists (demo_boot 2 "xyz"), [1;2;3]%R, hop_disps, [4;2;1]%R.
  split; [reflexivity|]. split; [reflexivity|]. split; [reflexivity|]. split; [reflexivity|].
  split; [repeat constructor; lra|]. intros G Seed RS X g.
  destruct (hop_run X g) as (b & E & _ & _ & Ev). exists b. split; [exact E|]. intros H.
  specialize (H all_axes 1%nat hop_arr 1%R (1/4)%R names_xyz eq_refl eq_refl).
  rewrite Ev in H. specialize (H eq_refl).
  assert (SV : sample_variance (map (sqlen all_axes) (entries hop_arr)) = (1/2)%R).
  { unfold sample_variance, average, rsum, sqlen. cbn. unfold rsum; cbn. field. }
  rewrite SV in H. lra.
Qed.


Lemma C27_refuted_proof : exists u dts disps n_o, u_block u = false /\ u_sub_sample_dt u = 2
  /\ length dts = length disps /\ length n_o = length disps /\ Forall (fun x => 0 < x)%R n_o /\ NoDup dts
  /\ forall (G Seed RS : Type) (X : Ext R G Seed RS) (g : G), exists b, msd_bootstrap X u dts disps n_o g = Ok (b, g)
      /\ ~ n_o_claim dts n_o b.
Proof.
  exists (demo_boot 2 "xyz"), [1;2;3]%R, hop_disps, [4;2;1]%R.
  split; [reflexivity|]. split; [reflexivity|]. split; [reflexivity|]. split; [reflexivity|].
  split; [repeat constructor; lra|].
  split. { repeat constructor; cbn; intros H; repeat destruct H as [H|H]; try lra; exact H. }
  intros G Seed RS X g. destruct (hop_run X g) as (b & E & E1 & E2 & _). exists b. split; [exact E|]. intros H.
  specialize (H 1%nat 2%nat 3%R). rewrite E1, E2 in H. specialize (H eq_refl eq_refl). cbn in H. injection H. lra.
Qed.

(** ** C30 for dimension x *)
Definition side_arr : Arr R := (mkArr 2 [[mkV 0 1 0; mkV 0 1 0]])%R.
Lemma C30_refuted_proof : exists u dts disps n_o q axes, u_block u = false /\ u_sub_sample_dt u = 1
  /\ names (pystr_text (u_dimension u)) axes
  /\ length dts = length disps /\ length n_o = length disps /\ Forall (fun x => 0 < x)%R n_o
  /\ Forall (fun d => length (a_rows d) = 1%nat) disps
  /\ forall (G Seed RS : Type) (X : Ext R G Seed RS) (g : G), exists b, mscd_bootstrap X u dts disps (QScalar q) n_o g = Ok (b, g)
      /\ b_n b = [1]%R /\ map (mscd_of axes [q]) (firstn 1 disps) = [0]%R.
Proof.
  exists (demo_boot 1 "x"), [1;2]%R, [side_arr; side_arr], [2;2]%R, 1%R, [AX].
  split; [reflexivity|]. split; [reflexivity|]. split; [exact names_x|]. split; [reflexivity|]. split; [reflexivity|].
  split; [repeat constructor; lra|]. split; [repeat constructor|]. intros G Seed RS X g.
  assert (Hwf : Forall arr_wf [side_arr; side_arr]) by repeat constructor.
  assert (Hna : Forall (fun d : Arr R => length (a_rows d) = 1%nat) [side_arr; side_arr]) by repeat constructor.
  assert (Hq : forall l, QScalar 1%R = QArray l -> length l = 1%nat) by (intros; discriminate).
  destruct (mscd_total X (demo_boot 1 "x") [1;2]%R [side_arr; side_arr] (QScalar 1%R) [2;2]%R [AX] 1 g) as (b & E);
    try assumption; try reflexivity; [exact names_x|discriminate|repeat constructor|].
  exists b. split; [exact E|]. split.
  - destruct (C30_proof X (demo_boot 1 "x") _ _ _ _ _ _ _ 1%nat eq_refl eq_refl Hwf Hna Hq E) as (used & shown & H2 & H3 & ->).
    cbn [demo_boot u_sub_sample_dt] in H2. change (Z.to_nat 1) with 1%nat in H2.
    apply sub_sample_one in H2. subst used.
    assert (ES : shown = [side_arr]) by (eapply leading_all; [|exact H3]; repeat constructor).
    rewrite ES. cbn. unfold mscd_of, average, rsum. cbn. unfold sqlen; cbn. unfold rsum; cbn. f_equal; field.
  - cbn. unfold mscd_of, average, rsum. cbn. unfold sqlen; cbn. unfold rsum; cbn. f_equal; field.
Qed.

(** ** C32 *)
Lemma argmax_from_spec l best ib pre : (ib < length pre)%nat -> nth_error pre ib = Some best ->
  (forall j x, nth_error pre j = Some x -> (x <= best)%R /\ ((j < ib)%nat -> (x < best)%R)) ->
  first_maximum (pre ++ l) (argmax_from best ib (length pre) l).
Proof.
  revert best ib pre. induction l as [|y l IH]; intros best ib pre H1 H2 H3; cbn [argmax_from].
  - rewrite app_nil_r. exists best. auto.
  - assert (EL : S (length pre) = length (pre ++ [y])) by (rewrite app_length; cbn; lia).
    rewrite EL. replace (pre ++ y :: l)%list with ((pre ++ [y]) ++ l)%list by now rewrite <- app_assoc.
    numR. destruct (Rltb best y) eqn:E.
    + apply Rltb_true in E. apply IH.
      * rewrite app_length; cbn; lia.
      * rewrite nth_error_app2 by lia. now rewrite Nat.sub_diag.
      * intros j x Hj. destruct (Nat.lt_ge_cases j (length pre)) as [Hlt|Hge].
        -- rewrite nth_error_app1 in Hj by lia. apply H3 in Hj as [Hx _]. split; [lra|intros; lra].
        -- rewrite nth_error_app2 in Hj by lia. destruct (j - length pre)%nat eqn:Ej; [|destruct n; discriminate].
           injection Hj as <-. split; [lra|]. intros. lia.
    + apply Rltb_false in E. apply IH.
      * rewrite app_length; cbn; lia.
      * now rewrite nth_error_app1 by lia.
      * intros j x Hj. destruct (Nat.lt_ge_cases j (length pre)) as [Hlt|Hge].
        -- rewrite nth_error_app1 in Hj by lia. now apply H3.
        -- rewrite nth_error_app2 in Hj by lia. destruct (j - length pre)%nat eqn:Ej; [|destruct n; discriminate].
           injection Hj as <-. split; [lra|]. intros. lia.
Qed.
Lemma argmax_spec l : l <> [] -> exists i, argmax l = Ok i /\ first_maximum l i.
Proof.
  destruct l as [|x l]; [congruence|]. intros _. exists (argmax_from x 0 1 l). split; [reflexivity|].
  apply (argmax_from_spec l x 0 [x]); [cbn; lia|reflexivity|].
  intros [|j] y Hy; [|destruct j; discriminate]. injection Hy as <-. split; [lra|lia].
Qed.
Lemma ngp_max_spec (a : Analyzer R) : length (b_dt (an_diff a)) = length (b_ngp (an_diff a)) ->
  b_ngp (an_diff a) <> [] ->
  exists i t, ngp_max a = Ok t /\ nth_error (b_dt (an_diff a)) i = Some t /\ first_maximum (b_ngp (an_diff a)) i.
Proof.
  intros HL Hn. destruct (argmax_spec _ Hn) as (i & E & H). unfold ngp_max. rewrite E. cbn [bind].
  assert (Hi : (i < length (b_dt (an_diff a)))%nat).
  { rewrite HL. destruct H as (m & Hm & _). apply nth_error_Some. congruence. }
  apply nth_error_Some in Hi. destruct (nth_error (b_dt (an_diff a)) i) as [t|] eqn:Et; [|congruence].
  exists i, t. split; [|auto]. rewrite py_index_nat, Et. reflexivity.
Qed.
Section C32.
  Context {G Seed RS : Type} (X : Ext R G Seed RS).
  Lemma C32_proof d u g a g' : 0 < u_sub_sample_dt u -> diffusion_analyzer X d u g = Ok (a, g') ->
    b_dt (an_diff a) <> [] ->
    exists i t, ngp_max a = Ok t /\ nth_error (b_dt (an_diff a)) i = Some t /\ first_maximum (b_ngp (an_diff a)) i.
  Proof.
    intros Hk H Hn. unfold diffusion_analyzer in H. inv_bind H p E. destruct p as [b g1]. injection H as <- <-.
    cbn [an_diff] in *.
    destruct (msd_run X _ _ _ _ _ _ _ Hk E) as (axes & shown & _ & _ & _ & _ & _ & HR).
    assert (L : length (b_dt b) = length (b_ngp b)).
    { rewrite (br_dt_len _ _ _ _ _ _ _ _ _ _ HR), (br_ngp _ _ _ _ _ _ _ _ _ _ HR), map_length. reflexivity. }
    apply (ngp_max_spec (mkAn d b)); [exact L|]. cbn. intros H0. rewrite H0 in L. apply Hn. now destruct (b_dt b).
  Qed.
  Lemma C32_empty_proof d u g a g' : 0 < u_sub_sample_dt u -> diffusion_analyzer X d u g = Ok (a, g') ->
    b_dt (an_diff a) = [] -> ngp_max a = Raise ValueError.
  Proof.
    intros Hk H Hn. unfold diffusion_analyzer in H. inv_bind H p E. destruct p as [b g1]. injection H as <- <-.
    cbn [an_diff] in *.
    destruct (msd_run X _ _ _ _ _ _ _ Hk E) as (axes & shown & _ & _ & _ & _ & _ & HR).
    assert (L : length (b_dt b) = length (b_ngp b)).
    { rewrite (br_dt_len _ _ _ _ _ _ _ _ _ _ HR), (br_ngp _ _ _ _ _ _ _ _ _ _ HR), map_length. reflexivity. }
    unfold ngp_max. cbn. rewrite Hn in L. now destruct (b_ngp b).
  Qed.
End C32.

(** ** C51 *)
Lemma C51_proof : forall b : Boot R, n_i b = Raise AttributeError /\ dt_property b = Ok (b_dt b).
Proof. intros b. split; reflexivity. Qed.

(** ** Variance of the collective quantities: the number of observations is divided by the atoms *)
Section C55.
  Context {G Seed RS : Type} (X : Ext R G Seed RS).
  Lemma C55_mstd_proof u dts disps n_o g b g' : 0 < u_sub_sample_dt u -> u_block u = false -> Forall arr_wf disps ->
    mstd_bootstrap X u dts disps n_o g = Ok (b, g') ->
    forall i v, nth_error (b_v b) i = Some v -> exists axes d no, names (pystr_text (u_dimension u)) axes
      /\ nth_error disps (i * Z.to_nat (u_sub_sample_dt u)) = Some d /\ nth_error n_o i = Some no
      /\ v = (sample_variance (tab (a_obs d) (fun t => sqlen axes (sum3 (at_time d t)))) / (no / INR (length (a_rows d))))%R.
  Proof.
    intros Hk Hb Hwf H i v Hv.
    destruct (mstd_run X u dts disps n_o g b g' Hk Hwf H) as (axes & shown & H1 & _ & H2 & _ & H3 & HR).
    assert (Hi : (i < length shown)%nat).
    { rewrite <- (br_v_len _ _ _ _ _ _ _ _ _ _ HR). apply nth_error_Some. congruence. }
    apply nth_error_Some in Hi. destruct (nth_error shown i) as [d|] eqn:E; [|congruence].
    destruct (br_v _ _ _ _ _ _ _ _ _ _ HR Hb i d E) as (no & N1 & N2).
    exists axes, d, no. split; [exact H1|].
    split.
    { apply (leading_nth _ _ _ _ _ (br_shown _ _ _ _ _ _ _ _ _ _ HR)) in E. apply firstn_nth_error in E. now rewrite H2 in E. }
    split; [exact N1|]. rewrite N2 in Hv. now injection Hv as <-.
  Qed.
  Lemma C55_mscd_proof u dts disps q n_o g b g' natoms : 0 < u_sub_sample_dt u -> u_block u = false -> Forall arr_wf disps ->
    Forall (fun d => length (a_rows d) = natoms) disps -> (forall l, q = QArray l -> length l = natoms) ->
    mscd_bootstrap X u dts disps q n_o g = Ok (b, g') ->
    forall i v, nth_error (b_v b) i = Some v -> exists d no,
      nth_error disps (i * Z.to_nat (u_sub_sample_dt u)) = Some d /\ nth_error n_o i = Some no
      /\ v = (sample_variance (tab (a_obs d) (fun t => sqlen all_axes
               (sum3 (map (fun p => scale3 (fst p) (snd p)) (combine (charges q natoms) (at_time d t))))))
              / (no / INR natoms))%R.
  Proof.
    intros Hk Hb Hwf Hna Hq H i v Hv.
    destruct (mscd_run X u dts disps q n_o g b g' natoms Hk Hwf Hna Hq H) as (axes & shown & H1 & _ & H2 & _ & H3 & HR).
    assert (Hi : (i < length shown)%nat).
    { rewrite <- (br_v_len _ _ _ _ _ _ _ _ _ _ HR). apply nth_error_Some. congruence. }
    apply nth_error_Some in Hi. destruct (nth_error shown i) as [d|] eqn:E; [|congruence].
    destruct (br_v _ _ _ _ _ _ _ _ _ _ HR Hb i d E) as (no & N1 & N2).
    exists d, no.
    assert (K : nth_error disps (i * Z.to_nat (u_sub_sample_dt u)) = Some d).
    { apply (leading_nth _ _ _ _ _ (br_shown _ _ _ _ _ _ _ _ _ _ HR)) in E. apply firstn_nth_error in E. now rewrite H2 in E. }
    split; [exact K|]. split; [exact N1|]. rewrite N2 in Hv. injection Hv as <-.
    apply nth_error_In in K. rewrite Forall_forall in Hna. now rewrite (Hna d K).
  Qed.
End C55.

(** ** C26: number of dimensions *)
Section C26b.
  Context {G Seed RS : Type} (X : Ext R G Seed RS).
  Lemma init_loop_dims u dts disps no k dim b0 q ns n_o l g b1 g1 :
    bootstrap_init dts disps no k dim = Ok b0 ->
    boot_loop X u q ns n_o 0 l b0 g = Ok (b1, g1) ->
    exists axes, names (pystr_text dim) axes /\ b_dims b1 = length axes.
  Proof.
    intros E1 E2. destruct (bootstrap_init_ok _ _ _ _ _ _ E1) as (axes & N1 & N2 & N3 & _).
    destruct (boot_loop_inv X u q ns n_o (b_delta_t b0) (b_slice b0) _ [] 0%nat b0 g b1 g1 eq_refl eq_refl
                (analysed_start X u q ns n_o _ _ _ _ _ _ E1) E2) as (F & m & HA).
    exists axes. split; [exact N1|]. assert (F4 : b_dims b1 = b_dims b0) by (unfold frame_of in F; congruence). congruence.
  Qed.
  Lemma C26_msd_proof u dts disps n_o g b g' : 0 < u_sub_sample_dt u ->
    msd_bootstrap X u dts disps n_o g = Ok (b, g') ->
    exists axes, names (pystr_text (u_dimension u)) axes /\ b_dims b = length axes.
  Proof.
    intros _ H. unfold msd_bootstrap in H. inv_bind H b0 E1. inv_bind H bg E2. destruct bg as [b1 g1].
    injection H as <- <-. exact (init_loop_dims _ _ _ _ _ _ _ _ _ _ _ _ _ _ E1 E2).
  Qed.
  Lemma C26_mstd_proof u dts disps n_o g b g' : 0 < u_sub_sample_dt u ->
    mstd_bootstrap X u dts disps n_o g = Ok (b, g') ->
    exists axes, names (pystr_text (u_dimension u)) axes /\ b_dims b = length axes.
  Proof.
    intros _ H. unfold mstd_bootstrap in H. inv_bind H b0 E1. inv_bind H bg E2. destruct bg as [b1 g1].
    injection H as <- <-. exact (init_loop_dims _ _ _ _ _ _ _ _ _ _ _ _ _ _ E1 E2).
  Qed.
  Lemma C26_mscd_proof u dts disps q n_o g b g' : 0 < u_sub_sample_dt u ->
    mscd_bootstrap X u dts disps q n_o g = Ok (b, g') ->
    exists axes, names (pystr_text (u_dimension u)) axes /\ b_dims b = length axes.
  Proof.
    intros _ H. unfold mscd_bootstrap in H. inv_bind H b0 E1. inv_bind H d0 E0. inv_bind H bg E2. destruct bg as [b1 g1].
    injection H as <- <-. exact (init_loop_dims _ _ _ _ _ _ _ _ _ _ _ _ _ _ E1 E2).
  Qed.
End C26b.
Lemma C26_example_proof : names "Xz" [AX; AZ] /\ ~ nameable "zx" /\ ~ nameable "" /\ ~ nameable "xyzw".
Proof.
  split; [repeat split; cbn; try congruence; lia|]. split; [|split]; intros (axes & H1 & H2 & H3).
  - destruct axes as [|a [|b [|]]]; try discriminate. cbn in H1. injection H1 as <- <-. cbn in H3. lia.
  - destruct axes; [congruence|discriminate].
  - destruct axes as [|? [|? [|? [|? [|]]]]]; discriminate.
Qed.
Lemma C31_example_proof : msd_of all_axes demo_pair = 2%R /\ msd_of all_axes demo_pair' = 4%R.
Proof. unfold msd_of, average, rsum, sqlen; cbn; unfold rsum; cbn. split; field. Qed.

Section Examples2.
  Context {G Seed RS : Type} (X : Ext R G Seed RS) (g : G).
  Lemma C30_example_proof : exists b b1,
    mstd_bootstrap X (demo_boot 1 "xyz") [1;2]%R demo_disps [4;3]%R g = Ok (b, g)
    /\ mscd_bootstrap X (demo_boot 1 "xyz") [1;2]%R demo_disps (QArray [1;1]%R) [4;3]%R g = Ok (b1, g)
    /\ b_n b1 = [6]%R.
  Proof.
    destruct (demo_mstd X g) as (b & E & En).
    assert (Hq : forall l, QArray [1;1]%R = QArray l -> length l = 2%nat) by (intros l [= <-]; reflexivity).
    destruct (mscd_total X (demo_boot 1 "xyz") [1;2]%R demo_disps (QArray [1;1]%R) [4;3]%R all_axes 2 g) as (b1 & E1);
      try reflexivity; try assumption; [exact names_xyz|discriminate|exact demo_wf|exact demo_atoms|exact demo_obs|].
    exists b, b1. split; [exact E|]. split; [exact E1|]. rewrite <- En.
    refine (C30_unit_proof X (demo_boot 1 "xyz") _ _ (QArray [1;1]%R) _ g b g g b1 g 2%nat eq_refl eq_refl demo_wf demo_atoms Hq _ names_xyz E E1).
    cbn. repeat constructor.
  Qed.
  Lemma C32_example_proof : exists a,
    diffusion_analyzer X (mkAnalyzer [1;2] demo_disps [4;3] None)%R (demo_boot 1 "xyz") g = Ok (a, g)
    /\ ngp_max a = Ok 1%R.
  Proof.
    destruct (demo_msd X g) as (b & E & _ & _ & En). unfold diffusion_analyzer. cbn [an_delta_t an_disp_3d an_n_o].
    rewrite E. cbn [bind]. eexists. split; [reflexivity|].
    destruct (msd_run X (demo_boot 1 "xyz") _ _ _ _ _ _ eq_refl E) as (axes & shown & _ & _ & _ & H4 & _ & HR).
    cbn [demo_boot u_sub_sample_dt] in H4. change (Z.to_nat 1) with 1%nat in H4. apply sub_sample_one in H4.
    assert (L : length shown = 2%nat).
    { assert (L := f_equal (@length R) En). rewrite (br_ngp _ _ _ _ _ _ _ _ _ _ HR), map_length in L. exact L. }
    assert (ED := br_dt _ _ _ _ _ _ _ _ _ _ HR). rewrite H4, L in ED. cbn [firstn] in ED.
    unfold ngp_max. cbn [an_diff]. rewrite En, ED. cbn [argmax argmax_from]. numR.
    assert (Rltb (-1/40) (-2/5) = false) as -> by (apply Rltb_false; lra). cbn [bind].
    exact (py_index_nat [1;2]%R 0).
  Qed.
  Lemma C51_refuted_proof : exists b,
    msd_bootstrap X (demo_boot 1 "xyz") [1;2]%R demo_disps [4;3]%R g = Ok (b, g) /\ n_i b = Raise AttributeError.
  Proof. destruct (demo_msd X g) as (b & E & _). exists b. split; [exact E|]. reflexivity. Qed.
End Examples2.
