(** * ProofsAxes: what the choice of axes does to collective displacements and conductivities (C114) *)
From Verif Require Import Base Spec SpecParser SpecStats SpecFit SpecRun SpecAnalyzer SpecAxes ModelParser ModelDiffusion ModelHdf ModelAnalyzer Lemmas ProofsDisp ProofsBoot ProofsStats ProofsStats2 ProofsFit ProofsCov ProofsFit2 ProofsFit2 ProofsAnalyzer ProofsNernst.
From Coq Require Import Reals Lra Lia Permutation.
Open Scope Z_scope.

Section Axes.
  Context {G Seed RS : Type} (X : Ext R G Seed RS).
  (** A fit only looks at the times, the values, their variances and the numbers of observations. *)
  Lemma gls_same_data b b' p g b1 g1 r : b_dt b' = b_dt b -> b_n b' = b_n b -> b_v b' = b_v b -> b_n_o b' = b_n_o b ->
    bootstrap_GLS X b p g = (b1, g1, r) -> b_dims b1 = b_dims b /\ exists b1', bootstrap_GLS X b' p g = (b1', g1, r) /\ b_dims b1' = b_dims b' /\ (r = Ok tt -> b_gradient b1' = b_gradient b1).
  Proof.
    intros E1 E2 E3 E4. unfold bootstrap_GLS. cbn [set_settings b_dt]. rewrite E1. set (g0 := match l_random_state p with Some _ => _ | None => _ end).
    destruct (find_regime _ _ _) as [dr|e]; [|intros [= <- <- <-]; split; [reflexivity|]; eexists; split; [reflexivity|]; split; [reflexivity|discriminate]].
    assert (EG : generate_covariance_matrix X (set_settings b' p) p dr = generate_covariance_matrix X (set_settings b p) p dr).
    { unfold generate_covariance_matrix. cbn [set_settings b_n_o b_dt b_v]. now rewrite E1, E3, E4. }
    rewrite EG. destruct (generate_covariance_matrix X (set_settings b p) p dr) as [[raw|] [cov|e]];
      try (intros [= <- <- <-]; split; [reflexivity|]; eexists; split; [reflexivity|]; split; [reflexivity|discriminate]).
    assert (ES : sample_gls X (set_covariance (set_settings b' p) cov) p dr cov g0 = sample_gls X (set_covariance (set_settings b p) cov) p dr cov g0).
    { unfold sample_gls. cbn [set_settings set_covariance b_dt b_n]. now rewrite E1, E2. }
    rewrite ES. destruct (sample_gls X (set_covariance (set_settings b p) cov) p dr cov g0) as [g' [chain|e]];
      [|intros [= <- <- <-]; split; [reflexivity|]; eexists; split; [reflexivity|]; split; [reflexivity|discriminate]].
    destruct (column 0 chain) as [gr|e]; [|intros [= <- <- <-]; split; [reflexivity|]; eexists; split; [reflexivity|]; split; [reflexivity|discriminate]].
    destruct (if l_fit_intercept p then _ else _) as [ic|e]; intros [= <- <- <-]; (split; [reflexivity|]; eexists; split; [reflexivity|]; split; [reflexivity|]); [reflexivity|discriminate].
  Qed.
  Lemma C114_charge_proof u u' dts disps q n_o g g' b b' h h' natoms : 0 < u_sub_sample_dt u -> u_sub_sample_dt u' = u_sub_sample_dt u -> u_block u = false -> u_block u' = false ->
    Forall arr_wf disps -> Forall (fun d => length (a_rows d) = natoms) disps -> (forall l, q = QArray l -> length l = natoms) ->
    mscd_bootstrap X u dts disps q n_o g = Ok (b, h) -> mscd_bootstrap X u' dts disps q n_o g' = Ok (b', h') -> same_charge_data b b'.
  Proof.
    intros Hk Hu Hb Hb' W HN Hq H H'. assert (Hk' : 0 < u_sub_sample_dt u') by now rewrite Hu.
    destruct (mscd_run X u dts disps q n_o g b h natoms Hk W HN Hq H) as (axes & shown & _ & _ & S1 & S2 & S3 & HR).
    destruct (mscd_run X u' dts disps q n_o g' b' h' natoms Hk' W HN Hq H') as (axes' & shown' & _ & _ & S1' & S2' & S3' & HR').
    rewrite Hu in S1', S2'. rewrite (sub_sample_unique _ _ _ _ S1' S1), (sub_sample_unique _ _ _ _ S2' S2) in HR'.
    assert (shown' = shown) by (eapply leading_unique; [exact (br_shown _ _ _ _ _ _ _ _ _ _ HR')|exact (br_shown _ _ _ _ _ _ _ _ _ _ HR)]). subst shown'.
    assert (V : b_v b' = b_v b).
    { apply list_ext. intros i. destruct (nth_error shown i) as [d|] eqn:E.
      - destruct (br_v _ _ _ _ _ _ _ _ _ _ HR Hb i d E) as (no & N1 & ->). destruct (br_v _ _ _ _ _ _ _ _ _ _ HR' Hb' i d E) as (no' & N1' & ->). congruence.
      - apply nth_error_None in E. rewrite !(proj2 (nth_error_None _ _)); [reflexivity| |].
        + rewrite (br_v_len _ _ _ _ _ _ _ _ _ _ HR). exact E.
        + rewrite (br_v_len _ _ _ _ _ _ _ _ _ _ HR'). exact E. }
    split; [now rewrite (br_dt _ _ _ _ _ _ _ _ _ _ HR), (br_dt _ _ _ _ _ _ _ _ _ _ HR')|].
    split; [now rewrite (br_n _ _ _ _ _ _ _ _ _ _ HR Hb), (br_n _ _ _ _ _ _ _ _ _ _ HR' Hb')|].
    split; [exact V|]. split; [now rewrite (br_s _ _ _ _ _ _ _ _ _ _ HR), (br_s _ _ _ _ _ _ _ _ _ _ HR'), V|]. congruence.
  Qed.
  Lemma C114_sigma_proof k d q u u' axes axes' g g' an an' h h' p T g2 ac g3 natoms : 0 < u_sub_sample_dt u -> u_sub_sample_dt u' = u_sub_sample_dt u -> u_block u = false -> u_block u' = false ->
    names (pystr_text (u_dimension u)) axes -> names (pystr_text (u_dimension u')) axes' ->
    Forall arr_wf (an_disp_3d d) -> Forall (fun d => length (a_rows d) = natoms) (an_disp_3d d) -> (forall l, q = QArray l -> length l = natoms) ->
    conductivity_analyzer X d q u g = Ok (an, h) -> conductivity_analyzer X d q u' g' = Ok (an', h') -> an_conductivity X k an p T g2 = (ac, g3, Ok tt) ->
    exists ac' s, an_conductivity X k an' p T g2 = (ac', g3, Ok tt) /\ b_sigma (an_diff ac) = Some s
      /\ b_sigma (an_diff ac') = Some (map (fun x => INR (length axes) / INR (length axes') * x)%R s).
  Proof.
    intros Hk Hu Hb Hb' Hn Hn' W HN Hq H H' HC. unfold conductivity_analyzer in H, H'. inv_bind H bg E. destruct bg as [b h1]. injection H as <- <-. inv_bind H' bg E'. destruct bg as [b' h2]. injection H' as <- <-.
    assert (Hk' : 0 < u_sub_sample_dt u') by now rewrite Hu.
    destruct (C114_charge_proof _ _ _ _ _ _ _ _ _ _ _ _ natoms Hk Hu Hb Hb' W HN Hq E E') as (D1 & D2 & D3 & _ & D4).
    destruct (mscd_run X u _ _ _ _ _ _ _ natoms Hk W HN Hq E) as (a1 & sh & N1 & M1 & _). destruct (mscd_run X u' _ _ _ _ _ _ _ natoms Hk' W HN Hq E') as (a2 & sh2 & N2 & M2 & _).
    assert (a1 = axes) by (eapply names_unique; eauto). assert (a2 = axes') by (eapply names_unique; eauto). subst a1 a2.
    assert (P : forall s l, names s l -> (INR (length l) <> 0)%R). { intros s l (_ & Q & _). apply not_0_INR. destruct l; [congruence|discriminate]. }
    pose proof (P _ _ Hn) as P1. pose proof (P _ _ Hn') as P2.
    unfold an_conductivity in *. cbn [an_data an_diff] in *. destruct (an_volume d) as [vol|].
    2:{ destruct (bootstrap_GLS X b p g2) as [[b1 gq] [?|e]]; discriminate. }
    unfold conductivity in *. set (c := conductivity_conversion k T vol) in *. clearbody c. destruct (bootstrap_GLS X b p g2) as [[b1 g1] r] eqn:EB.
    destruct (gls_same_data b b' p g2 b1 g1 r D1 D2 D3 D4 EB) as (Q1 & b1' & EB' & Q2 & Q3). rewrite EB'.
    destruct r as [[]|e]; [|discriminate]. rewrite (Q3 eq_refl). destruct (samples_of (b_gradient b1)) as [gr|e]; [|discriminate].
    injection HC as <- <-. do 2 eexists. split; [reflexivity|]. cbn [an_diff set_sigma b_sigma]. split; [reflexivity|]. f_equal. unfold diffusion_samples. rewrite !map_map. apply map_ext. intros x.
    rewrite Q1, Q2, M1, M2, !nofnat_R. numR. field. split; assumption.
  Qed.
  Lemma C114_jump_proof u u1 u2 axes a1 a2 dts disps n_o g g1 g2 b b1 b2 h h1 h2 : 0 < u_sub_sample_dt u -> u_sub_sample_dt u1 = u_sub_sample_dt u -> u_sub_sample_dt u2 = u_sub_sample_dt u ->
    u_block u = false -> u_block u1 = false -> u_block u2 = false -> names (pystr_text (u_dimension u)) axes -> names (pystr_text (u_dimension u1)) a1 -> names (pystr_text (u_dimension u2)) a2 ->
    Permutation axes (a1 ++ a2)%list -> Forall arr_wf disps ->
    mstd_bootstrap X u dts disps n_o g = Ok (b, h) -> mstd_bootstrap X u1 dts disps n_o g1 = Ok (b1, h1) -> mstd_bootstrap X u2 dts disps n_o g2 = Ok (b2, h2) ->
    forall i m x y, nth_error (b_n b) i = Some m -> nth_error (b_n b1) i = Some x -> nth_error (b_n b2) i = Some y -> m = (x + y)%R.
  Proof.
    intros Hk K1 K2 Hb B1 B2 Hn Hn1 Hn2 HP W H H1 H2 i m x y Em Ex Ey.
    apply C29_proof in H as (ax & us & sh & X1 & X2 & X3 & X4); [|exact Hk|exact Hb|exact W].
    apply C29_proof in H1 as (ay & uy & sy & Y1 & Y2 & Y3 & Y4); [|now rewrite K1|exact B1|exact W].
    apply C29_proof in H2 as (az & uz & sz & Z1 & Z2 & Z3 & Z4); [|now rewrite K2|exact B2|exact W]. rewrite K1 in Y2. rewrite K2 in Z2.
    assert (uy = us) by (eapply sub_sample_unique; eauto). assert (uz = us) by (eapply sub_sample_unique; eauto). subst uy uz.
    assert (sy = sh) by (eapply leading_unique; eauto). assert (sz = sh) by (eapply leading_unique; eauto). subst sy sz.
    assert (ax = axes) by (eapply names_unique; eauto). assert (ay = a1) by (eapply names_unique; eauto). assert (az = a2) by (eapply names_unique; eauto). subst ax ay az.
    rewrite X4 in Em. rewrite Y4 in Ex. rewrite Z4 in Ey. rewrite nth_error_map in *. destruct (nth_error sh i) as [d|]; [|discriminate].
    injection Em as <-. injection Ex as <-. injection Ey as <-. unfold mstd_of, average. rewrite !tab_length. unfold Rdiv. rewrite <- Rmult_plus_distr_r. f_equal. unfold tab. rewrite <- rsum_map_plus. f_equal. apply map_ext. intros t.
    unfold sqlen. rewrite <- rsum_app, <- map_app. apply rsum_perm, Permutation_map, HP.
  Qed.
End Axes.

(** Motion along y only: the charge displacement is 1 along whichever axes. *)
Lemma side_mscd {G Seed RS : Type} (X : Ext R G Seed RS) (g : G) s axes : names s axes -> exists b, mscd_bootstrap X (demo_boot 1 s) [1;2]%R [side_arr; side_arr] (QScalar 1%R) [2;2]%R g = Ok (b, g) /\ b_n b = [1]%R.
Proof.
  intros N.
  assert (Hwf : Forall arr_wf [side_arr; side_arr]) by repeat constructor.
  assert (Hna : Forall (fun d : Arr R => length (a_rows d) = 1%nat) [side_arr; side_arr]) by repeat constructor.
  assert (Ho : Forall (fun d : Arr R => 1 < a_obs d)%nat [side_arr; side_arr]) by repeat constructor.
  assert (Hq : forall l, QScalar 1%R = QArray l -> length l = 1%nat) by (intros; discriminate).
  destruct (mscd_total X (demo_boot 1 s) [1;2]%R [side_arr; side_arr] (QScalar 1%R) [2;2]%R axes 1 g) as (b & E);
    try assumption; try reflexivity; [discriminate|]. exists b. split; [exact E|].
  destruct (C30_proof X (demo_boot 1 s) _ _ _ _ _ _ _ 1%nat eq_refl eq_refl Hwf Hna Hq E) as (used & shown & H2 & H3 & ->).
  cbn [demo_boot u_sub_sample_dt] in H2. change (Z.to_nat 1) with 1%nat in H2. apply sub_sample_one in H2. subst used.
  assert (ES : shown = [side_arr]) by (eapply leading_all; [|exact H3]; repeat constructor).
  rewrite ES. cbn. unfold mscd_of, average, rsum. cbn. unfold sqlen; cbn. unfold rsum; cbn. f_equal; field.
Qed.
Lemma names_y : names "y" [AY]. Proof. repeat split; congruence. Qed.
Lemma names_xy : names "xy" [AX; AY]. Proof. repeat split; cbn; try congruence; lia. Qed.
Lemma C114_refuted_proof : forall G Seed RS (X : Ext R G Seed RS) (g : G), exists d bx bY bxy,
  conductivity_analyzer X d (QScalar 1%R) (demo_boot 1 "x") g = Ok (bx, g) /\ conductivity_analyzer X d (QScalar 1%R) (demo_boot 1 "y") g = Ok (bY, g)
  /\ conductivity_analyzer X d (QScalar 1%R) (demo_boot 1 "xy") g = Ok (bxy, g)
  /\ b_n (an_diff bx) = [1]%R /\ b_n (an_diff bY) = [1]%R /\ b_n (an_diff bxy) = [1]%R.
Proof.
  intros G Seed RS X g. destruct (side_mscd X g _ _ names_x) as (bx & E1 & V1). destruct (side_mscd X g _ _ names_y) as (bY & E2 & V2). destruct (side_mscd X g _ _ names_xy) as (bxy & E3 & V3).
  exists (mkAnalyzer [1;2]%R [side_arr; side_arr] [2;2]%R (Some 1%R)). unfold conductivity_analyzer. cbn [an_delta_t an_disp_3d an_n_o]. rewrite E1, E2, E3. cbn [bind].
  do 3 eexists. do 3 (split; [reflexivity|]). cbn [an_diff]. auto.
Qed.
Lemma C114_example_proof k g : exists an an' ac, conductivity_analyzer (demo_ext 1 6) demo_volume (QScalar 1%R) (demo_boot 1 "xyz") g = Ok (an, g)
  /\ conductivity_analyzer (demo_ext 1 6) demo_volume (QScalar 1%R) (demo_boot 1 "x") g = Ok (an', g)
  /\ an_conductivity (demo_ext 1 6) k an (demo_fit 1 true) 300%R g = (ac, 8%nat, Ok tt)
  /\ Forall arr_wf (an_disp_3d demo_volume) /\ Forall (fun d => length (a_rows d) = 2%nat) (an_disp_3d demo_volume).
Proof.
  assert (Hq : forall l, QScalar 1%R = QArray l -> length l = 2%nat) by (intros; discriminate).
  destruct (mscd_total (demo_ext 1 6) (demo_boot 1 "xyz") [1;2]%R demo_disps (QScalar 1%R) [4;3]%R all_axes 2 g) as (b & E);
    try reflexivity; try assumption; [exact names_xyz|discriminate|exact demo_wf|exact demo_atoms|exact demo_obs|].
  destruct (mscd_total (demo_ext 1 6) (demo_boot 1 "x") [1;2]%R demo_disps (QScalar 1%R) [4;3]%R [AX] 2 g) as (b' & E');
    try reflexivity; try assumption; [exact names_x|discriminate|exact demo_wf|exact demo_atoms|exact demo_obs|].
  destruct (mscd_run (demo_ext 1 6) (demo_boot 1 "xyz") _ _ _ _ _ _ _ 2 eq_refl demo_wf demo_atoms Hq E) as (ax & sh & N & N3 & S1 & S2 & S3 & R1).
  destruct (C30_proof (demo_ext 1 6) (demo_boot 1 "xyz") _ _ _ _ _ _ _ 2 eq_refl eq_refl demo_wf demo_atoms Hq E) as (used & shown & U & L & En).
  cbn [demo_boot u_sub_sample_dt] in S2, U. change (Z.to_nat 1) with 1%nat in S2, U. apply sub_sample_one in S2, U. subst used.
  assert (LS : length sh = 1%nat).
  { assert (shown = [demo_pair]) by (eapply leading_all; [|exact L]; repeat constructor). rewrite <- (br_n_len _ _ _ _ _ _ _ _ _ _ R1), En, H. reflexivity. }
  destruct (demo_one_gls 1 6 b true g) as (b1 & F & Gr & Dp).
  { rewrite (br_dt _ _ _ _ _ _ _ _ _ _ R1), LS, S2. reflexivity. }
  { rewrite (br_v_len _ _ _ _ _ _ _ _ _ _ R1). exact LS. }
  { rewrite S3, LS. reflexivity. }
  exists (mkAn demo_volume b), (mkAn demo_volume b'). eexists. split; [|split; [|split; [|split; [exact demo_wf|exact demo_atoms]]]].
  - unfold conductivity_analyzer, demo_volume. cbn [an_delta_t an_disp_3d an_n_o]. rewrite E. reflexivity.
  - unfold conductivity_analyzer, demo_volume. cbn [an_delta_t an_disp_3d an_n_o]. rewrite E'. reflexivity.
  - unfold an_conductivity, conductivity. cbn [an_diff an_data demo_volume an_volume]. rewrite F, Gr. reflexivity.
Qed.
