(** * ProofsNernst: charges and the Nernst-Einstein relation (C77) *)
From Verif Require Import Base Spec SpecParser SpecStats SpecFit SpecGls SpecSym ModelParser ModelDiffusion ModelHdf ModelAnalyzer
  Lemmas ProofsDisp ProofsIntervals ProofsGeom ProofsWindows ProofsParser ProofsBoot ProofsStats ProofsStats2 SpecRun SpecAnalyzer ProofsTraj ProofsCov ProofsFit ProofsAnalyzer
  ProofsReplica SpecInterfaces ProofsCollective ProofsSym ProofsFit2.
From Coq Require Import Reals Lra Lia.
Open Scope Z_scope.

Section Runs.
  Context {G Seed RS : Type} (X : Ext R G Seed RS).
  Lemma boot_step_slice u quantity ns n_o i d b g b' g' : boot_step X u quantity ns n_o i d b g = Ok (b', g') -> b_slice b' = b_slice b.
  Proof.
    intros H. unfold boot_step in H. inv_bind H ds E1. inv_bind H q E2. destruct (length q <=? 1)%nat; [now injection H as <- <-|].
    inv_bind H bt E4. destruct bt as [boot g1]. inv_bind H nv E5. destruct nv as [n v]. inv_bind H vi E6. inv_bind H dt E7. now injection H as <- <-.
  Qed.
  (** Only the quantity on the arrays at hand matters. *)
  Lemma boot_loop_ext u quantity quantity' ns n_o : forall disps i b g,
    (forall d ds, In d disps -> disp_slice (b_slice b) d = Ok ds -> quantity d ds = quantity' d ds) ->
    boot_loop X u quantity ns n_o i disps b g = boot_loop X u quantity' ns n_o i disps b g.
  Proof.
    induction disps as [|d rest IH]; intros i b g HQ; [reflexivity|]. cbn [boot_loop].
    assert (E : boot_step X u quantity ns n_o i d b g = boot_step X u quantity' ns n_o i d b g).
    { unfold boot_step. destruct (disp_slice (b_slice b) d) as [ds|e] eqn:Es; [|reflexivity]. cbn [bind]. rewrite (HQ d ds (or_introl eq_refl) Es). reflexivity. }
    rewrite E. destruct (boot_step X u quantity' ns n_o i d b g) as [[b' g']|e] eqn:Eb; [|reflexivity]. cbn [bind]. apply IH.
    intros d' ds Hd Hs. apply HQ; [now right|]. now rewrite <- (boot_step_slice _ _ _ _ _ _ _ _ _ _ Eb).
  Qed.
  Lemma mscd_values_ext q q' c d : arr_wf d -> length q = length (a_rows d) -> q' = map (Rmult c) q ->
    mscd_values q' d = map (Rmult (c * c)) (mscd_values q d).
  Proof.
    intros W L ->. unfold mscd_values, tab. rewrite map_map. apply map_ext. intros t.
    assert (E : map (fun p => scale3 (fst p) (snd p)) (combine (map (Rmult c) q) (at_time d t)) = map (scale3 c) (map (fun p => scale3 (fst p) (snd p)) (combine q (at_time d t)))).
    { clear. revert q. induction (at_time d t) as [|v l IH]; intros [|x q]; cbn; try reflexivity. f_equal; [|apply IH]. unfold scale3. cbn. f_equal; ring. }
    rewrite E. unfold sqlen. rewrite <- rsum_map_scal. f_equal. apply map_ext. intros a. rewrite !coord_sum3, map_map.
    assert (S : forall l, map (fun v => coord (scale3 c v) a) l = map (fun v => c * coord v a)%R l) by (intros; apply map_ext; intros v; now destruct a).
    rewrite S. rewrite rsum_map_scale. ring.
  Qed.
  Lemma mscd_values_ones n d : arr_wf d -> n = length (a_rows d) -> mscd_values (repeat 1%R n) d = mstd_values all_axes d.
  Proof.
    intros W ->. unfold mscd_values, mstd_values, tab. apply map_seq_ext. intros t Ht. rewrite combine_ones; [reflexivity| |apply Forall_forall; intros x; apply repeat_spec].
    rewrite repeat_length. now rewrite at_time_length.
  Qed.
  Lemma uniform_charges q n c : (forall l, q = QArray l -> length l = n) -> Forall (fun x => x = c) (charges q n) -> charges q n = map (Rmult c) (repeat 1%R n).
  Proof.
    intros L H. assert (E : length (charges q n) = n) by (destruct q; cbn; [apply repeat_length|now apply L]). revert n H E L. generalize (charges q). intros f n. generalize (f n). clear f.
    intros l H E _. revert n E. induction H as [|x l -> H IH]; intros n E; cbn in E; subst n; [reflexivity|]. cbn [length repeat map]. f_equal; [ring|now apply IH].
  Qed.
  Lemma mscd_values_uniform q n c d : arr_wf d -> length (a_rows d) = n -> (forall l, q = QArray l -> length l = n) -> Forall (fun x => x = c) (charges q n) ->
    mscd_values (charges q n) d = map (Rmult (c * c)) (mstd_values all_axes d).
  Proof.
    intros W L Hq H. rewrite (mscd_values_ext (repeat 1%R n) _ c d W); [|rewrite repeat_length; congruence|now apply uniform_charges]. now rewrite mscd_values_ones.
  Qed.

  (** Unit charges of one sign: the two classes build the same object. *)
  Lemma C77_same_proof u dts disps q n_o g natoms (c : R) : 0 < u_sub_sample_dt u -> Forall arr_wf disps ->
    Forall (fun d => length (a_rows d) = natoms) disps -> (forall l, q = QArray l -> length l = natoms) ->
    Forall (fun x => x = c) (charges q natoms) -> (c * c = 1)%R -> names (pystr_text (u_dimension u)) all_axes ->
    mscd_bootstrap X u dts disps q n_o g = mstd_bootstrap X u dts disps n_o g.
  Proof.
    intros Hk W HN Hq HC Hc Hall. unfold mscd_bootstrap, mstd_bootstrap. destruct (bootstrap_init dts disps n_o (u_sub_sample_dt u) (u_dimension u)) as [b|e] eqn:E; [|reflexivity]. cbn [bind].
    destruct (bootstrap_init_ok _ _ _ _ _ _ E) as (axes & N1 & N2 & N3 & N4 & N5 & N6 & (d0 & N7 & _)).
    assert (axes = all_axes) by (eapply names_unique; eauto). subst axes. pose proof (stride_sub _ _ _ Hk N4) as SS.
    assert (E0 : py_index (b_displacements b) 0 = Ok d0) by (change 0 with (Z.of_nat 0); rewrite py_index_nat; now rewrite N7). rewrite E0. cbn [bind].
    assert (HD : forall d, In d (b_displacements b) -> arr_wf d /\ length (a_rows d) = natoms).
    { intros d Hd. rewrite Forall_forall in W, HN. assert (In d disps) by (eapply sub_sample_In; eauto). split; auto. }
    rewrite (proj2 (HD d0 ltac:(eapply nth_error_In; eauto))), charge_array_R.
    rewrite (boot_loop_ext u _ (fun d ds => Ok (coll_motion (a_obs d) (b_dims b) ds))); [reflexivity|].
    intros d ds Hd Hs. destruct (HD d (first_half_In _ _ Hd)) as (Wd & Nd). rewrite (disp_slice_axes _ _ _ N2) in Hs. injection Hs as <-.
    rewrite N3, coll_motion_axes by exact Wd. rewrite sq_chg_motion_axes; [|rewrite (uniform_charges q natoms c Hq HC), map_length, repeat_length; now symmetry|exact Wd].
    f_equal. fold (mscd_values (charges q natoms) d). rewrite (mscd_values_uniform q natoms c d Wd Nd Hq HC), Hc. unfold mstd_values.
    rewrite <- (map_id (tab (a_obs d) _)) at 2. apply map_ext. intros x. ring.
  Qed.
  (** Reversing the sign of every charge changes nothing. *)
  Lemma C77_sign_proof u dts disps q n_o g natoms : 0 < u_sub_sample_dt u -> Forall arr_wf disps ->
    Forall (fun d => length (a_rows d) = natoms) disps -> (forall l, q = QArray l -> length l = natoms) ->
    mscd_bootstrap X u dts disps (scale_charge (-1) q) n_o g = mscd_bootstrap X u dts disps q n_o g.
  Proof.
    intros Hk W HN Hq. unfold mscd_bootstrap. destruct (bootstrap_init dts disps n_o (u_sub_sample_dt u) (u_dimension u)) as [b|e] eqn:E; [|reflexivity]. cbn [bind].
    destruct (bootstrap_init_ok _ _ _ _ _ _ E) as (axes & N1 & N2 & N3 & N4 & N5 & N6 & (d0 & N7 & _)).
    pose proof (stride_sub _ _ _ Hk N4) as SS.
    assert (E0 : py_index (b_displacements b) 0 = Ok d0) by (change 0 with (Z.of_nat 0); rewrite py_index_nat; now rewrite N7). rewrite E0. cbn [bind].
    assert (HD : forall d, In d (b_displacements b) -> arr_wf d /\ length (a_rows d) = natoms).
    { intros d Hd. rewrite Forall_forall in W, HN. assert (In d disps) by (eapply sub_sample_In; eauto). split; auto. }
    rewrite (proj2 (HD d0 ltac:(eapply nth_error_In; eauto))), !charge_array_R, charges_scale.
    rewrite (boot_loop_ext u _ (fun d _ => sq_chg_motion (charges q natoms) d)); [reflexivity|].
    intros d ds Hd Hs. destruct (HD d (first_half_In _ _ Hd)) as (Wd & Nd).
    assert (L : length (charges q natoms) = length (a_rows d)) by (rewrite Nd; destruct q; cbn; [apply repeat_length|now apply Hq]).
    rewrite !sq_chg_motion_axes by (try rewrite map_length; assumption). f_equal. fold (mscd_values (charges q natoms) d). fold (mscd_values (map (Rmult (-1)) (charges q natoms)) d).
    rewrite (mscd_values_ext (charges q natoms) _ (-1) d Wd L eq_refl). rewrite <- (map_id (mscd_values _ d)) at 2. apply map_ext. intros x. ring.
  Qed.
  (** Equal charges act like a change of the length unit. *)
  Lemma C77_uniform_proof u dts disps q n_o g b g' g1 b1 g1' natoms (c : R) : 0 < u_sub_sample_dt u -> u_block u = false -> Forall arr_wf disps ->
    Forall (fun d => length (a_rows d) = natoms) disps -> (forall l, q = QArray l -> length l = natoms) ->
    Forall (fun x => x = c) (charges q natoms) -> names (pystr_text (u_dimension u)) all_axes ->
    mstd_bootstrap X u dts disps n_o g = Ok (b, g') -> mscd_bootstrap X u dts disps q n_o g1 = Ok (b1, g1') ->
    scaled_statistics c b b1.
  Proof.
    intros Hk Hb W HN Hq HC Hall H H'.
    destruct (mstd_run X _ _ _ _ _ _ _ Hk W H) as (ax & sh & N & _ & S1 & S2 & S3 & R1).
    destruct (mscd_run X _ _ _ _ _ _ _ _ natoms Hk W HN Hq H') as (ax' & sh' & N' & _ & S1' & S2' & S3' & R1').
    assert (ax = all_axes) by (eapply names_unique; eauto). assert (ax' = all_axes) by (eapply names_unique; eauto). subst ax ax'.
    rewrite (sub_sample_unique _ _ _ _ S1' S1), (sub_sample_unique _ _ _ _ S2' S2) in R1'.
    rewrite <- (map_id (firstn _ (b_displacements b))) in R1'.
    assert (HD : forall d, In d (firstn (length (b_displacements b) / 2) (b_displacements b)) -> arr_wf d /\ length (a_rows d) = natoms).
    { intros d Hd. rewrite Forall_forall in W, HN. assert (In d disps) by (eapply sub_sample_In; [exact S1|]; rewrite <- (firstn_skipn (length (b_displacements b) / 2) (b_displacements b)); apply in_or_app; now left). split; auto. }
    destruct (report_scale X u _ _ _ _ _ _ (fun d => d) (c * c)%R _ _ _ _ _
      (fun d Hd => mscd_values_uniform q natoms c d (proj1 (HD d Hd)) (proj2 (HD d Hd)) Hq HC) (fun d => eq_refl) Hb R1 R1') as (A1 & A2 & A3 & A4).
    split; [exact A1|]. split; [exact A2|]. split; [exact A3|]. rewrite S3, S3', A4. reflexivity.
  Qed.
  (** One fit gives both coefficients. *)
  Lemma fit_relation k b p T V g b1 g1 d0 : k_NA k <> 0%R -> k_R k <> 0%R -> T <> 0%R -> V <> 0%R -> (0 < b_dims b)%nat ->
    nth_error (b_displacements b) 0 = Some d0 -> (0 < length (a_rows d0))%nat ->
    jump_diffusion X b p g = (b1, g1, Ok tt) ->
    exists b2 dj, b_DJ b1 = Some dj /\ conductivity X k b p T V g = (b2, g1, Ok tt)
      /\ b_sigma b2 = Some (map (fun D => in_milli (nernst_einstein (k_NA k) (k_e k) (k_R k) (in_cm3 V) T (INR (length (a_rows d0)) * D))) dj).
  Proof.
    intros H1 H2 H3 H4 Hd E0 HN H. destruct (jump_ok _ _ _ _ _ _ H) as (b' & gr & d & EG & Eg & Ed & ->). rewrite E0 in Ed. injection Ed as <-.
    assert (EC : conductivity X k b p T V g = (set_sigma b' (map (fun d => d * conductivity_conversion k T V)%R (diffusion_samples (b_dims b) gr)), g1, Ok tt)).
    { unfold conductivity. rewrite EG, Eg. cbn [samples_of opt_res]. assert (St := gls_statistics X _ _ _ _ _ _ EG). unfold same_statistics in St.
      assert (E2 : b_dims b' = b_dims b) by tauto. now rewrite E2. }
    eexists. eexists. split; [reflexivity|]. split; [exact EC|]. cbn [set_sigma b_sigma].
    rewrite diffusion_samples_units by exact Hd. rewrite jump_samples_units by assumption. rewrite !map_map. f_equal. apply map_ext. intros x.
    rewrite conversion_units by assumption. f_equal. f_equal. field. apply not_0_INR. lia.
  Qed.
  Lemma C77_nernst_proof k d q u g an g1 p T V aj gj natoms (c : R) : 0 < u_sub_sample_dt u -> (0 < natoms)%nat -> Forall arr_wf (an_disp_3d d) ->
    Forall (fun d => length (a_rows d) = natoms) (an_disp_3d d) -> (forall l, q = QArray l -> length l = natoms) ->
    Forall (fun x => x = c) (charges q natoms) -> (c * c = 1)%R -> names (pystr_text (u_dimension u)) all_axes ->
    an_volume d = Some V -> k_NA k <> 0%R -> k_R k <> 0%R -> T <> 0%R -> V <> 0%R ->
    jump_diffusion_analyzer X d u g = Ok (an, g1) -> an_jump_diffusion X an p g1 = (aj, gj, Ok tt) ->
    exists ac dj, conductivity_analyzer X d q u g = Ok (an, g1) /\ an_conductivity X k an p T g1 = (ac, gj, Ok tt)
      /\ b_DJ (an_diff aj) = Some dj
      /\ b_sigma (an_diff ac) = Some (map (fun D => in_milli (nernst_einstein (k_NA k) (k_e k) (k_R k) (in_cm3 V) T (INR natoms * D))) dj).
  Proof.
    intros Hk HP W HN Hq HC Hc Hall HV H1 H2 H3 H4 HJ HF.
    assert (E : conductivity_analyzer X d q u g = Ok (an, g1)).
    { rewrite <- HJ. unfold conductivity_analyzer, jump_diffusion_analyzer. now rewrite (C77_same_proof u _ _ q _ g natoms c). }
    unfold jump_diffusion_analyzer in HJ. inv_bind HJ r Er. destruct r as [b g']. injection HJ as <- <-.
    destruct (mstd_run X _ _ _ _ _ _ _ Hk W Er) as (ax & sh & N & N3 & S1 & _).
    assert (ax = all_axes) by (eapply names_unique; eauto). subst ax.
    unfold mstd_bootstrap in Er. inv_bind Er b0 E0. inv_bind Er bg EL. destruct bg as [b1 g2]. injection Er as <- <-.
    destruct (bootstrap_init_ok _ _ _ _ _ _ E0) as (axes & _ & _ & _ & N4 & _ & _ & (d0 & N7 & _)).
    pose proof (sub_sample_unique _ _ _ _ (stride_sub _ _ _ Hk N4) S1) as SE. rewrite SE in N7.
    unfold an_jump_diffusion in HF. cbn [an_diff an_data] in HF. destruct (jump_diffusion X (trim_n_o b1) p g2) as [[bj gj'] rj] eqn:EJ. injection HF as <- <- ->.
    assert (Hn : length (a_rows d0) = natoms).
    { rewrite Forall_forall in HN. apply HN. eapply sub_sample_In; [exact S1|]. eapply nth_error_In; eauto. }
    destruct (fit_relation k (trim_n_o b1) p T V g2 bj gj' d0 H1 H2 H3 H4 ltac:(rewrite N3; cbn; lia) N7 ltac:(lia) EJ) as (b2 & dj & D1 & D2 & D3).
    exists (mkAn d b2), dj. split; [exact E|]. split; [|split; [exact D1|]].
    - unfold an_conductivity. cbn [an_data an_diff]. now rewrite HV, D2.
    - cbn [an_diff]. rewrite D3, Hn. reflexivity.
  Qed.
End Runs.

(** One atom: the collective statistics are the single-particle ones, for the first half of the intervals. *)
Section OneAtom.
  Context {G Seed RS : Type} (X : Ext R G Seed RS).
  Lemma C77_one_atom_proof u dts disps n_o g g1 b b1 g' g1' :
    0 < u_sub_sample_dt u -> u_block u = false -> Forall arr_wf disps ->
    Forall (fun d => length (a_rows d) = 1%nat) disps ->
    msd_bootstrap X u dts disps n_o g = Ok (b, g') -> mstd_bootstrap X u dts disps n_o g1 = Ok (b1, g1') ->
    exists k, k = Nat.div (length (b_displacements b)) 2
      /\ b_n b1 = firstn k (b_n b) /\ b_v b1 = firstn k (b_v b) /\ b_dt b1 = firstn k (b_dt b) /\ b_n_o b1 = firstn k (b_n_o b).
  Proof.
    intros Hk Hb Hwf H1 H H'. exists (Nat.div (length (b_displacements b)) 2). split; [reflexivity|].
    split; [exact (C29_single_proof X u dts disps n_o n_o g g1 b b1 g' g1' Hk Hb Hwf H1 H H')|].
    destruct (msd_run X u dts disps n_o g b g' Hk H) as (axes & shown & A1 & _ & A2 & A3 & A4 & HR).
    destruct (mstd_run X u dts disps n_o g1 b1 g1' Hk Hwf H') as (axes' & shown' & A1' & _ & A2' & A3' & A4' & HR').
    assert (axes' = axes) by (eapply names_unique; eauto). subst axes'.
    assert (EU : b_displacements b1 = b_displacements b) by (eapply sub_sample_unique; eauto). rewrite EU in HR'.
    assert (ET : b_delta_t b1 = b_delta_t b) by (eapply sub_sample_unique; eauto). rewrite ET in HR'.
    assert (K : forall d, In d disps -> exists row, a_rows d = [row] /\ length row = a_obs d).
    { intros d Hd. rewrite Forall_forall in H1, Hwf. specialize (H1 d Hd). specialize (Hwf d Hd). unfold arr_wf in Hwf.
      destruct (a_rows d) as [|row [|]]; cbn in H1; try lia. exists row. split; [reflexivity|]. now inversion Hwf. }
    assert (S1 := br_shown _ _ _ _ _ _ _ _ _ _ HR). assert (S2 := br_shown _ _ _ _ _ _ _ _ _ _ HR').
    set (k := Nat.div (length (b_displacements b)) 2) in *.
    assert (Hin : forall d, In d (firstn k (b_displacements b)) -> In d disps).
    { intros d Hd. eapply sub_sample_In; [exact A2|]. rewrite <- (firstn_skipn k). apply in_or_app. now left. }
    assert (E : shown' = firstn k shown).
    { rewrite <- (map_id (firstn k shown)). eapply (leading_map (fun d => d)); [|exact (leading_firstn _ _ _ k S1)|].
      2:{ rewrite map_id. exact S2. }
      intros d Hd. destruct (K d (Hin d Hd)) as (row & R1 & R2). cbn beta. unfold msd_values, mstd_values.
      rewrite tab_length, map_length. unfold entries. rewrite R1. cbn [List.concat]. rewrite app_nil_r. lia. }
    assert (EL : length shown' = Nat.min k (length shown)) by (rewrite E; apply firstn_length).
    split; [|split].
    - apply list_ext. intros i. assert (LV := br_v_len _ _ _ _ _ _ _ _ _ _ HR). assert (LV' := br_v_len _ _ _ _ _ _ _ _ _ _ HR').
      destruct (nth_error shown' i) as [d|] eqn:Ed.
      + assert (Hi : (i < length shown')%nat) by (apply nth_error_Some; congruence).
        destruct (br_v _ _ _ _ _ _ _ _ _ _ HR' Hb i d Ed) as (no & N1 & N2). rewrite N2.
        assert (Ed' : nth_error shown i = Some d). { rewrite E in Ed. rewrite nth_error_firstn in Ed by lia. exact Ed. }
        destruct (br_v _ _ _ _ _ _ _ _ _ _ HR Hb i d Ed') as (no' & N1' & N2'). rewrite nth_error_firstn by lia. rewrite N2'.
        assert (no' = no) by congruence. subst no'. f_equal.
        assert (Id : In d disps). { apply Hin. apply nth_error_In in Ed. now destruct (leading_In _ _ _ _ S2 Ed). }
        destruct (K d Id) as (row & R1 & R2). rewrite R1. cbn [length]. change (INR 1) with 1%R.
        assert (EQ : mstd_values axes d = msd_values axes d).
        { unfold mstd_values, msd_values, entries. rewrite R1. cbn [List.concat]. rewrite app_nil_r. apply list_map_ext; [rewrite tab_length; lia|]. intros j v Hv.
          assert (Hj : (j < a_obs d)%nat) by (rewrite <- R2; apply nth_error_Some; congruence).
          unfold tab. rewrite nth_error_map_seq by exact Hj. unfold at_time. rewrite R1. cbn [flat_map]. rewrite Hv. cbn [app]. f_equal.
          unfold sqlen. f_equal. apply map_ext. intros a. destruct a; cbn; ring. }
        rewrite EQ. unfold Rdiv. now rewrite Rinv_1, Rmult_1_r.
      + assert (Hi : (length shown' <= i)%nat) by now apply nth_error_None.
        rewrite (proj2 (nth_error_None (b_v b1) i)) by lia. symmetry. apply nth_error_None. rewrite firstn_length. lia.
    - rewrite (br_dt _ _ _ _ _ _ _ _ _ _ HR), (br_dt _ _ _ _ _ _ _ _ _ _ HR'), firstn_firstn, EL. reflexivity.
    - rewrite A4, A4', firstn_firstn, EL. reflexivity.
  Qed.
End OneAtom.

(** ** Examples *)
(** A fit through one point. *)
Lemma demo_one_gls pv m0 b (f : bool) g : b_dt b = [1%R] -> length (b_v b) = 1%nat -> length (b_n_o b) = 1%nat ->
  exists b', bootstrap_GLS (demo_ext pv m0) b (demo_fit 1 f) g = (b', 8%nat, Ok tt) /\ b_gradient b' = Some (repeat m0 4)
    /\ b_displacements b' = b_displacements b.
Proof.
  intros Ed Lv Lo. unfold bootstrap_GLS. change (b_dt (set_settings b (demo_fit 1 f))) with (b_dt b). rewrite Ed.
  change (l_start_dt (demo_fit 1 f)) with 1%R.
  assert (Hr : first_at_least 1 [1]%R 0) by (exists 1%R; split; [reflexivity|split; [lra|intros i y Hi; lia]]).
  rewrite (find_regime_of_first _ _ _ Hr).
  assert (EG : exists raw cov, generate_covariance_matrix (demo_ext pv m0) (set_settings b (demo_fit 1 f)) (demo_fit 1 f) 0 = (Some raw, Ok cov)).
  { unfold generate_covariance_matrix. cbn [demo_fit l_model bind].
    change (b_v (set_settings b _)) with (b_v b). change (b_n_o (set_settings b _)) with (b_n_o b). rewrite !skipn_O.
    destruct (b_v b) as [|v [|]]; try discriminate Lv. destruct (b_n_o b) as [|o [|]]; try discriminate Lo.
    assert (Ep : exists m, populate_covariance_matrix [v] [o] = Ok m /\ length m = 1%nat) by (unfold populate_covariance_matrix; eexists; split; reflexivity).
    destruct Ep as (m & -> & Lm). unfold minimum_eigenvalue_method. cbn [demo_ext x_eig bind].
    rewrite demo_eig by (try lia; cbn; lra). cbn [bind demo_ext x_cov_nearest]. eauto. }
  destruct EG as (raw & cov & EG). rewrite EG.
  unfold sample_gls. cbn [demo_ext x_logdet x_pinvh x_linregress x_minimize bind demo_fit l_random_state x_seed x_seed_of l_fit_intercept
    l_n_walkers l_n_samples l_n_burn l_thin x_randn].
  set (dts := skipn 0 _). set (ns := skipn 0 _). set (ld := nadd _ _).
  match goal with |- context[match ?l with [] => [m0; 0%R] | _ => _ end] => assert (E1 : match l with [_] => [m0] | _ => [m0; 0%R] end = (if f then [m0; 0%R] else [m0])) by (now destruct f) end.
  rewrite E1. change (Z.to_nat 4) with 4%nat.
  assert (E2 : length (if f then [m0; 0%R] else [m0]) = if f then 2%nat else 1%nat) by (now destruct f).
  rewrite E2, demo_positions.
  destruct (demo_ll dts ns ld cov m0 f) as (lps & E3 & L3).
  unfold run_mcmc. cbn [demo_ext x_independent guard bind]. rewrite E3. cbn [bind].
  change (0 <=? 1 + 0) with true. change (0 <? 1 + 0) with true. cbn [guard bind].
  assert (E4 : (2 * (if f then 2 else 1) <=? length (demo_chain m0 f))%nat = true) by (now destruct f).
  rewrite E4. cbn [guard bind]. change (Z.to_nat (1 + 0)) with 1%nat. cbn [run_chain].
  unfold half_step. cbn [demo_ext x_propose].
  assert (E5 : forall ws, move_walkers (log_likelihood dts ns ld cov) ws [] = Ok ws) by (now intros [|]).
  rewrite !E5. cbn [bind]. rewrite E5. cbn [bind].
  assert (E6 : map fst (combine (demo_chain m0 f) lps) = demo_chain m0 f).
  { destruct lps as [|l1 [|l2 [|l3 [|l4 [|]]]]]; try discriminate L3. now destruct f. }
  rewrite E6. unfold get_chain. change (0 + 1 - 1) with 0. unfold py_from. cbn [length].
  assert (E7 : py_bound 1 0 = 0%nat) by reflexivity. rewrite E7. cbn [skipn]. rewrite py_stride_one. cbn [bind List.concat]. rewrite app_nil_r.
  destruct f; eexists; repeat split; reflexivity.
Qed.
Definition demo_volume : AnalyzerData R := mkAnalyzer [1;2]%R demo_disps [4;3]%R (Some 1%R).
Lemma C77_example_proof g : exists an aj,
  jump_diffusion_analyzer (demo_ext 1 6) demo_volume (demo_boot 1 "xyz") g = Ok (an, g)
  /\ an_jump_diffusion (demo_ext 1 6) an (demo_fit 1 true) g = (aj, 8%nat, Ok tt)
  /\ b_DJ (an_diff aj) = Some (repeat (1 / 20000)%R 4)
  /\ Forall arr_wf (an_disp_3d demo_volume) /\ Forall (fun d => length (a_rows d) = 2%nat) (an_disp_3d demo_volume)
  /\ Forall (fun x => x = (-1)%R) (charges (QArray [-1;-1]%R) 2) /\ (-1 * -1 = 1)%R /\ names (pystr_text (u_dimension (demo_boot 1 "xyz"))) all_axes.
Proof.
  destruct (demo_mstd (demo_ext 1 6) g) as (b & E & En).
  destruct (mstd_run (demo_ext 1 6) (demo_boot 1 "xyz") _ _ _ _ _ _ eq_refl demo_wf E) as (ax & sh & N & N3 & S1 & S2 & S3 & R1).
  cbn [demo_boot u_sub_sample_dt] in S2. change (Z.to_nat 1) with 1%nat in S2. apply sub_sample_one in S2.
  assert (LS : length sh = 1%nat) by (rewrite <- (br_n_len _ _ _ _ _ _ _ _ _ _ R1), En; reflexivity).
  assert (axes_all : ax = all_axes) by (eapply names_unique; [exact N|exact names_xyz]).
  destruct (demo_one_gls 1 6 b true g) as (b' & F & Gr & Dp).
  { rewrite (br_dt _ _ _ _ _ _ _ _ _ _ R1), LS, S2. reflexivity. }
  { rewrite (br_v_len _ _ _ _ _ _ _ _ _ _ R1). exact LS. }
  { rewrite S3, LS. reflexivity. }
  exists (mkAn demo_volume b). eexists. split; [|split; [|split]].
  - unfold jump_diffusion_analyzer, demo_volume. cbn [an_delta_t an_disp_3d an_n_o]. rewrite E. reflexivity.
  - unfold an_jump_diffusion, jump_diffusion. cbn [an_diff an_data]. rewrite F, Gr, Dp. cbn [samples_of opt_res].
    assert (D0 : py_index (b_displacements b) 0 = Ok demo_pair).
    { change 0 with (Z.of_nat 0). rewrite py_index_nat. rewrite S1. reflexivity. }
    rewrite D0. reflexivity.
  - cbn [an_diff set_DJ b_DJ]. f_equal. assert (St := gls_statistics (demo_ext 1 6) _ _ _ _ _ _ F). unfold same_statistics in St.
    assert (Ed : b_dims b' = 3%nat) by (rewrite axes_all in N3; cbn in N3; rewrite <- N3; tauto). rewrite Ed.
    unfold jump_samples. cbn [repeat map demo_pair a_rows length]. rewrite !nofnat_R. numR.
    assert (V : (6 / (20000 * INR 3 * INR 2) = 1 / 20000)%R) by (cbn; field). rewrite V. reflexivity.
  - split; [exact demo_wf|]. split; [exact demo_atoms|]. split; [repeat constructor|]. split; [lra|exact names_xyz].
Qed.
(** Motion along y only, analysed along x. *)
Lemma C77_axes_refuted_proof {G Seed RS : Type} (X : Ext R G Seed RS) (g : G) : exists d an cn,
  jump_diffusion_analyzer X d (demo_boot 1 "x") g = Ok (an, g) /\ b_n (an_diff an) = [0]%R
  /\ conductivity_analyzer X d (QScalar 1%R) (demo_boot 1 "x") g = Ok (cn, g) /\ b_n (an_diff cn) = [1]%R.
Proof.
  assert (Hwf : Forall arr_wf [side_arr; side_arr]) by repeat constructor.
  assert (Hna : Forall (fun d : Arr R => length (a_rows d) = 1%nat) [side_arr; side_arr]) by repeat constructor.
  assert (Ho : Forall (fun d : Arr R => 1 < a_obs d)%nat [side_arr; side_arr]) by repeat constructor.
  assert (Hq : forall l, QScalar 1%R = QArray l -> length l = 1%nat) by (intros; discriminate).
  destruct (mscd_total X (demo_boot 1 "x") [1;2]%R [side_arr; side_arr] (QScalar 1%R) [2;2]%R [AX] 1 g) as (b & E);
    try assumption; try reflexivity; [exact names_x|discriminate|].
  destruct (mstd_total X (demo_boot 1 "x") [1;2]%R [side_arr; side_arr] [2;2]%R [AX] g) as (b1 & E1);
    try assumption; try reflexivity; [exact names_x|discriminate|].
  exists (mkAnalyzer [1;2]%R [side_arr; side_arr] [2;2]%R (Some 1%R)). unfold jump_diffusion_analyzer, conductivity_analyzer. cbn [an_delta_t an_disp_3d an_n_o].
  rewrite E, E1. cbn [bind]. do 2 eexists. split; [reflexivity|]. cbn [an_diff]. split; [|split; [reflexivity|]].
  - destruct (C29_proof X (demo_boot 1 "x") _ _ _ _ _ _ eq_refl eq_refl Hwf E1) as (axes & used & shown & H1 & H2 & H3 & ->).
    assert (axes = [AX]) by (eapply names_unique; [exact H1|exact names_x]). subst axes.
    cbn [demo_boot u_sub_sample_dt] in H2. change (Z.to_nat 1) with 1%nat in H2. apply sub_sample_one in H2. subst used.
    assert (ES : shown = [side_arr]) by (eapply leading_all; [|exact H3]; repeat constructor).
    rewrite ES. cbn. unfold mstd_of, average, rsum. cbn. unfold sqlen; cbn. unfold rsum; cbn. f_equal; field.
  - cbn [an_diff]. destruct (C30_proof X (demo_boot 1 "x") _ _ _ _ _ _ _ 1%nat eq_refl eq_refl Hwf Hna Hq E) as (used & shown & H2 & H3 & ->).
    cbn [demo_boot u_sub_sample_dt] in H2. change (Z.to_nat 1) with 1%nat in H2. apply sub_sample_one in H2. subst used.
    assert (ES : shown = [side_arr]) by (eapply leading_all; [|exact H3]; repeat constructor).
    rewrite ES. cbn. unfold mscd_of, average, rsum. cbn. unfold sqlen; cbn. unfold rsum; cbn. f_equal; field.
Qed.
