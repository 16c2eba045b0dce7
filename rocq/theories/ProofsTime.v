(** * ProofsTime: change of the time unit, the bootstrap option, thinning *)
From Verif Require Import Base Spec SpecParser SpecStats SpecFit ModelParser ModelDiffusion ModelHdf ModelAnalyzer Lemmas
  ProofsDisp ProofsIntervals ProofsWindows ProofsParser ProofsTraj ProofsBoot ProofsStats ProofsFit ProofsFit2 ProofsSym SpecRun SpecSym.
From Coq Require Import Reals Lra Lia.
Open Scope Z_scope.

(** ** Time unit *)
Section Time.
  Variable c : R.
  Hypothesis Hc : c <> 0%R.
  Lemma div_retime (m ts : R) k : py_div (c * m)%R (nofZ k * (c * ts))%R = py_div m (nofZ k * ts)%R.
  Proof.
    unfold py_div. destruct (neqb (nofZ k * ts)%R n0) eqn:E.
    - apply neqb_R_true in E. replace (neqb (nofZ k * (c * ts))%R n0) with true; [reflexivity|].
      symmetry. apply neqb_R_true. transitivity (c * (nofZ k * ts))%R; [ring|]. rewrite E. apply Rmult_0_r.
    - apply neqb_R_false in E. replace (neqb (nofZ k * (c * ts))%R n0) with false.
      + f_equal. numR. assert (A : IZR k <> 0%R) by (intros E'; apply E; rewrite E'; apply Rmult_0_l).
        assert (B : ts <> 0%R) by (intros E'; apply E; rewrite E'; apply Rmult_0_r).
        field. auto.
      + symmetry. apply neqb_R_false. intros E'. apply E. numR.
        assert (E2 : (c * (IZR k * ts) = 0)%R) by (rewrite <- E'; ring).
        apply Rmult_integral in E2 as [E2|E2]; [contradiction|exact E2].
  Qed.
  Lemma intervals_retime geo (m1 m2 ts : R) k n sp :
    get_time_intervals geo (c * m1)%R (c * m2)%R k (c * ts)%R n sp = get_time_intervals geo m1 m2 k ts n sp.
  Proof. unfold get_time_intervals. numR. rewrite !div_retime. reflexivity. Qed.
  Lemma get_disps_retime (ts : R) k idx smp mem isz tis dc :
    get_disps (c * ts)%R k idx smp mem isz tis dc
    = outcome (fun r => (map (Rmult c) (fst (fst r)), snd (fst r), snd r)) (get_disps ts k idx smp mem isz tis dc).
  Proof.
    unfold get_disps. assert (E : map (fun ti => (nofZ ti * (c * ts) * nofZ k)%R) tis = map (Rmult c) (map (fun ti => (nofZ ti * ts * nofZ k)%R) tis)).
    { rewrite map_map. apply map_ext. intros ti. ring. }
    destruct tis as [|t tis].
    - destruct (nltb mem _); reflexivity.
    - rewrite outcome_bind. apply bind_ext. intros sel _. destruct (nltb mem _); [reflexivity|].
      rewrite outcome_bind. apply bind_ext. intros r _. cbn [outcome fst snd]. do 3 f_equal. exact E.
  Qed.
  Lemma parser_init_retime geo disp idx didx ts k o :
    parser_init geo disp idx didx (c * ts)%R k (retime_opts c o) = outcome (retime_parsed c) (parser_init geo disp idx didx ts k o).
  Proof.
    unfold parser_init. rewrite outcome_bind. apply bind_ext. intros dc _.
    cbn [retime_opts o_min_dt o_max_dt o_n_steps o_spacing o_sampling o_memory_limit o_itemsize].
    set (mx := match o_max_dt o with Some m => m | None => _ end).
    set (mn := match o_min_dt o with Some m => m | None => (nofZ k * ts)%R end).
    replace (match option_map (Rmult c) (o_max_dt o) with Some m => m | None => _ end) with (c * mx)%R
      by (unfold mx; destruct (o_max_dt o); cbn; numR; ring).
    replace (match option_map (Rmult c) (o_min_dt o) with Some m => m | None => _ end) with (c * mn)%R
      by (unfold mn; destruct (o_min_dt o); cbn; numR; ring).
    etransitivity; [apply (f_equal (fun z => bind z _)); exact (div_retime mn ts k)|].
    rewrite outcome_bind. apply bind_ext. intros q _. rewrite outcome_bind. apply bind_ext. intros mi _.
    destruct (_ <=? mi); [reflexivity|]. rewrite intervals_retime, outcome_bind. apply bind_ext. intros tis _.
    rewrite get_disps_retime, bind_outcome, outcome_bind. apply bind_ext. intros [[d1 d2] d3] _. reflexivity.
  Qed.
  Lemma choose_retime circ st coords a : choose_atoms circ st coords (retime c a) = choose_atoms circ st coords a.
  Proof. reflexivity. Qed.
  Lemma finish_retime geo circ st coords latt a k :
    finish_parse geo circ st coords latt (retime c a) k = outcome (retime_parsed c) (finish_parse geo circ st coords latt a k).
  Proof.
    unfold finish_parse. rewrite choose_retime, outcome_bind. apply bind_ext. intros sel _.
    rewrite outcome_bind. apply bind_ext. intros disp _. cbn [retime a_time_step a_opts pynum_val].
    rewrite parser_init_retime, bind_outcome, outcome_bind. apply bind_ext. intros; reflexivity.
  Qed.
  Lemma C61_ase_proof geo circ frames a : ase_parser geo circ frames (retime c a) = outcome (retime_parsed c) (ase_parser geo circ frames a).
  Proof.
    unfold ase_parser. rewrite outcome_bind. apply bind_ext. intros [[st coords] latt] _. apply finish_retime.
  Qed.
  Lemma C61_mda_proof geo circ frames a : mda_parser geo circ frames (retime c a) = outcome (retime_parsed c) (mda_parser geo circ frames a).
  Proof.
    unfold mda_parser. rewrite outcome_bind. apply bind_ext. intros u _. rewrite outcome_bind. apply bind_ext.
    intros [[st coords] latt] _. apply finish_retime.
  Qed.
  Lemma C61_pymatgen_proof geo circ frames a ts : a_time_step a = PyFloat ts ->
    pymatgen_parser geo circ frames (retime c a) = outcome (retime_parsed c) (pymatgen_parser geo circ frames a).
  Proof.
    intros Ht. unfold pymatgen_parser. rewrite outcome_bind. apply bind_ext. intros [[st coords] latt] _.
    rewrite finish_retime, bind_outcome, outcome_bind. apply bind_ext. intros p _. rewrite Ht. cbn [retime a_time_step outcome].
    f_equal. unfold set_delta_t, retime_parsed. cbn. f_equal. rewrite !map_map. apply map_ext. intros. numR. ring.
  Qed.
  Lemma sum_n_o_retime u acc : sum_n_o acc (map (retime_parsed c) u) = sum_n_o acc u.
  Proof. revert acc. induction u as [|p u IH]; intros acc; cbn; [reflexivity|]. apply bind_ext. intros; apply IH. Qed.
  Lemma stack_retime u : stack_trajectories (map (retime_parsed c) u) = stack_trajectories u.
  Proof.
    destruct u as [|p0 u]; [reflexivity|]. cbn [map stack_trajectories]. cbn [retime_parsed p_disp_3d].
    apply mapM_ext. intros [i d] _. cbn [fst snd]. unfold stack_one.
    change (retime_parsed c p0 :: map (retime_parsed c) u) with (map (retime_parsed c) (p0 :: u)).
    rewrite mapM_map. reflexivity.
  Qed.
  Lemma identical_retime {S} (parse parse' : S -> Res (Parsed R)) ts :
    (forall t, parse' t = outcome (retime_parsed c) (parse t)) ->
    identical parse' ts = outcome (retime_data c) (identical parse ts).
  Proof.
    intros H. unfold identical. rewrite (mapM_ext _ _ _ (fun t _ => H t)), mapM_outcome, bind_outcome, outcome_bind.
    apply bind_ext. intros u _. destruct u as [|p0 u]; [reflexivity|]. cbn [map].
    change (retime_parsed c p0 :: map (retime_parsed c) u) with (map (retime_parsed c) (p0 :: u)).
    rewrite sum_n_o_retime, outcome_bind. apply bind_ext. intros n_o _. rewrite stack_retime, outcome_bind.
    apply bind_ext. intros; reflexivity.
  Qed.
  Lemma from_frames_retime {Fr} (parse parse' : list Fr -> Res (Parsed R)) t dtype :
    (forall l, parse' l = outcome (retime_parsed c) (parse l)) ->
    from_frames parse' t dtype = outcome (retime_data c) (from_frames parse t dtype).
  Proof.
    intros H. unfold from_frames. destruct dtype as [d|].
    - destruct (String.eqb _ _); [|destruct (String.eqb _ _); [|reflexivity]]; destruct t as [l|ls]; try reflexivity.
      + now apply identical_retime.
      + rewrite H, bind_outcome, outcome_bind. apply bind_ext. intros; reflexivity.
    - destruct t as [l|ls]; [|reflexivity]. rewrite H, bind_outcome, outcome_bind. apply bind_ext. intros; reflexivity.
  Qed.
  Lemma from_universe_retime {U} (parse parse' : U -> Res (Parsed R)) t dtype :
    (forall l, parse' l = outcome (retime_parsed c) (parse l)) ->
    from_universe parse' t dtype = outcome (retime_data c) (from_universe parse t dtype).
  Proof.
    intros H. unfold from_universe. destruct dtype as [d|].
    - destruct (String.eqb _ _); [|reflexivity]; destruct t as [l|ls]; try reflexivity. now apply identical_retime.
    - destruct t as [l|ls]; [|reflexivity]. rewrite H, bind_outcome, outcome_bind. apply bind_ext. intros; reflexivity.
  Qed.
  Lemma C61_trajectories_proof geo circ a ts t dtype : a_time_step a = PyFloat ts ->
    from_frames (fun fs => ase_parser geo circ fs (retime c a)) t dtype
      = outcome (retime_data c) (from_frames (fun fs => ase_parser geo circ fs a) t dtype)
    /\ from_frames (fun fs => pymatgen_parser geo circ fs (retime c a)) t dtype
      = outcome (retime_data c) (from_frames (fun fs => pymatgen_parser geo circ fs a) t dtype)
    /\ from_universe (fun fs => mda_parser geo circ fs (retime c a)) t dtype
      = outcome (retime_data c) (from_universe (fun fs => mda_parser geo circ fs a) t dtype).
  Proof.
    intros H. split; [|split].
    - apply from_frames_retime. intros l. apply C61_ase_proof.
    - apply from_frames_retime. intros l. now apply C61_pymatgen_proof with ts.
    - apply from_universe_retime. intros l. apply C61_mda_proof.
  Qed.
End Time.
Section TimeStats.
  Context {G Seed RS : Type} (X : Ext R G Seed RS) (c : R).
  Lemma init_retime dts disps n_o k dim :
    bootstrap_init (map (Rmult c) dts) disps n_o k dim = outcome (retime_boot c) (bootstrap_init dts disps n_o k dim).
  Proof.
    unfold bootstrap_init. rewrite outcome_bind. apply bind_ext. intros ds _. rewrite stride_outcome, bind_outcome, outcome_bind.
    apply bind_ext. intros ts _. rewrite outcome_bind. apply bind_ext. intros d0 _. rewrite outcome_bind. apply bind_ext. intros; reflexivity.
  Qed.
  Lemma boot_step_retime u q ns n_o i d b g :
    boot_step X u q ns n_o i d (retime_boot c b) g = outcome (on_first (retime_boot c)) (boot_step X u q ns n_o i d b g).
  Proof.
    unfold boot_step. cbn [retime_boot b_slice b_v b_delta_t]. rewrite outcome_bind. apply bind_ext. intros ds _.
    rewrite outcome_bind. apply bind_ext. intros qs _. destruct (_ <=? 1)%nat; [reflexivity|].
    rewrite outcome_bind. apply bind_ext. intros [boot g'] _. rewrite outcome_bind. apply bind_ext. intros [n v] _.
    rewrite outcome_bind. apply bind_ext. intros vi _. rewrite index_outcome, bind_outcome, outcome_bind.
    apply bind_ext. intros dt _. cbn [outcome]. unfold on_first. cbn [fst snd]. do 2 f_equal.
    unfold push_results, retime_boot. cbn. rewrite map_app. destruct boot as [[[[? ?] ?] ?]|]; reflexivity.
  Qed.
  Lemma boot_loop_retime u q ns n_o : forall ds i b g,
    boot_loop X u q ns n_o i ds (retime_boot c b) g = outcome (on_first (retime_boot c)) (boot_loop X u q ns n_o i ds b g).
  Proof.
    induction ds as [|d ds IH]; intros i b g; cbn [boot_loop]; [reflexivity|].
    rewrite boot_step_retime, bind_outcome, outcome_bind. apply bind_ext. intros [b1 g1] _. cbn [on_first fst snd]. apply IH.
  Qed.
  Lemma C61_msd_proof u dts disps n_o g : msd_bootstrap X u (map (Rmult c) dts) disps n_o g
    = outcome (on_first (retime_boot c)) (msd_bootstrap X u dts disps n_o g).
  Proof.
    unfold msd_bootstrap. rewrite init_retime, bind_outcome, outcome_bind. apply bind_ext. intros b _.
    rewrite boot_loop_retime, bind_outcome, outcome_bind. cbn [retime_boot b_displacements]. apply bind_ext. intros [b' g'] _. reflexivity.
  Qed.
  Lemma C61_mstd_proof u dts disps n_o g : mstd_bootstrap X u (map (Rmult c) dts) disps n_o g
    = outcome (on_first (retime_boot c)) (mstd_bootstrap X u dts disps n_o g).
  Proof.
    unfold mstd_bootstrap. rewrite init_retime, bind_outcome, outcome_bind. apply bind_ext. intros b _.
    rewrite boot_loop_retime, bind_outcome, outcome_bind. cbn [retime_boot b_displacements b_dims]. apply bind_ext. intros [b' g'] _. reflexivity.
  Qed.
  Lemma C61_mscd_proof u dts disps q n_o g : mscd_bootstrap X u (map (Rmult c) dts) disps q n_o g
    = outcome (on_first (retime_boot c)) (mscd_bootstrap X u dts disps q n_o g).
  Proof.
    unfold mscd_bootstrap. rewrite init_retime, bind_outcome, outcome_bind. apply bind_ext. intros b _.
    cbn [retime_boot b_displacements]. rewrite outcome_bind. apply bind_ext. intros d0 _.
    rewrite (boot_loop_retime u), bind_outcome, outcome_bind. apply bind_ext. intros [b' g'] _. reflexivity.
  Qed.
  Lemma C61_analysers_proof d u q g :
    diffusion_analyzer X (retime_data c d) u g = outcome (on_first (retime_analyzer c)) (diffusion_analyzer X d u g)
    /\ jump_diffusion_analyzer X (retime_data c d) u g = outcome (on_first (retime_analyzer c)) (jump_diffusion_analyzer X d u g)
    /\ conductivity_analyzer X (retime_data c d) q u g = outcome (on_first (retime_analyzer c)) (conductivity_analyzer X d q u g).
  Proof.
    unfold diffusion_analyzer, jump_diffusion_analyzer, conductivity_analyzer. cbn [retime_data an_delta_t an_disp_3d an_n_o].
    rewrite C61_msd_proof, C61_mstd_proof, C61_mscd_proof, !bind_outcome, !outcome_bind.
    repeat split; apply bind_ext; intros [b g'] _; reflexivity.
  Qed.
  Lemma C61_regime_proof start dts : (0 < c)%R -> find_regime (c * start)%R 0 (map (Rmult c) dts) = find_regime start 0 dts.
  Proof.
    intros Hc. generalize 0%nat. induction dts as [|x t IH]; intros i; [reflexivity|]. cbn [map find_regime].
    replace (nleb (c * start)%R (c * x)%R) with (nleb start x); [destruct (nleb start x); [reflexivity|apply IH]|].
    numR. unfold Rleb. destruct (Rle_dec start x), (Rle_dec (c * start) (c * x)); try reflexivity; exfalso; nra.
  Qed.
End TimeStats.

(** ** The bootstrap option *)
Section Option.
  Context {G Seed RS : Type} (X : Ext R G Seed RS).
  Lemma boot_step_forget u q ns n_o i d b g b' g' :
    boot_step X (with_bootstrap u true) q ns n_o i d b g = Ok (b', g') ->
    forall h, boot_step X (with_bootstrap u false) q ns n_o i d (forget_boot b) h = Ok (forget_boot b', h).
  Proof.
    unfold boot_step. cbn [with_bootstrap u_bootstrap u_block u_n_resamples u_max_resamples u_alpha forget_boot b_slice b_v b_delta_t].
    intros H h. inv_bind H ds E1. inv_bind H qs E2. rewrite ?E1. cbn [bind]. rewrite ?E2. cbn [bind].
    destruct (_ <=? 1)%nat; [injection H as <- <-; reflexivity|].
    inv_bind H bg E3. destruct bg as [boot g1]. inv_bind H nv E4. destruct nv as [n v]. cbn [bind]. rewrite ?E4. cbn [bind].
    inv_bind H vi E5. inv_bind H dt E6. rewrite ?E5, ?E6. cbn [bind]. injection H as <- <-. reflexivity.
  Qed.
  Lemma boot_loop_forget u q ns n_o : forall ds i b g b' g',
    boot_loop X (with_bootstrap u true) q ns n_o i ds b g = Ok (b', g') ->
    forall h, boot_loop X (with_bootstrap u false) q ns n_o i ds (forget_boot b) h = Ok (forget_boot b', h).
  Proof.
    induction ds as [|d ds IH]; intros i b g b' g' H h; cbn [boot_loop] in *; [injection H as <- <-; reflexivity|].
    inv_bind H bg E. destruct bg as [b1 g1]. rewrite (boot_step_forget _ _ _ _ _ _ _ _ _ _ E h). cbn [bind]. eapply IH; exact H.
  Qed.
  Lemma init_forget dts disps n_o k dim (b : Boot R) : bootstrap_init dts disps n_o k dim = Ok b -> forget_boot b = b.
  Proof.
    unfold bootstrap_init. intros H. inv_bind H ds E1. inv_bind H ts E2. inv_bind H d0 E3. inv_bind H sl E4. injection H as <-. reflexivity.
  Qed.
  Lemma C62_msd_proof u dts disps n_o g b g' h : msd_bootstrap X (with_bootstrap u true) dts disps n_o g = Ok (b, g') ->
    msd_bootstrap X (with_bootstrap u false) dts disps n_o h = Ok (forget_boot b, h).
  Proof.
    unfold msd_bootstrap. cbn [with_bootstrap u_sub_sample_dt u_dimension]. intros H. inv_bind H b0 E0. inv_bind H bg E. destruct bg as [b1 g1].
    injection H as <- <-. rewrite ?E0. cbn [bind]. pose proof (boot_loop_forget _ _ _ _ _ _ _ _ _ _ E h) as Y.
    rewrite (init_forget _ _ _ _ _ _ E0) in Y. rewrite Y. reflexivity.
  Qed.
  Lemma C62_mstd_proof u dts disps n_o g b g' h : mstd_bootstrap X (with_bootstrap u true) dts disps n_o g = Ok (b, g') ->
    mstd_bootstrap X (with_bootstrap u false) dts disps n_o h = Ok (forget_boot b, h).
  Proof.
    unfold mstd_bootstrap. cbn [with_bootstrap u_sub_sample_dt u_dimension]. intros H. inv_bind H b0 E0. inv_bind H bg E. destruct bg as [b1 g1].
    injection H as <- <-. rewrite ?E0. cbn [bind]. pose proof (boot_loop_forget _ _ _ _ _ _ _ _ _ _ E h) as Y.
    rewrite (init_forget _ _ _ _ _ _ E0) in Y. rewrite Y. reflexivity.
  Qed.
  Lemma C62_mscd_proof u dts disps q n_o g b g' h : mscd_bootstrap X (with_bootstrap u true) dts disps q n_o g = Ok (b, g') ->
    mscd_bootstrap X (with_bootstrap u false) dts disps q n_o h = Ok (forget_boot b, h).
  Proof.
    unfold mscd_bootstrap. cbn [with_bootstrap u_sub_sample_dt u_dimension]. intros H. inv_bind H b0 E0. inv_bind H d0 E1. inv_bind H bg E.
    destruct bg as [b1 g1]. injection H as <- <-. rewrite ?E0. cbn [bind]. rewrite ?E1. cbn [bind]. pose proof (boot_loop_forget _ _ _ _ _ _ _ _ _ _ E h) as Y.
    rewrite (init_forget _ _ _ _ _ _ E0) in Y. rewrite Y. reflexivity.
  Qed.
  Lemma gls_forget b (p : GLSParams R RS) g : bootstrap_GLS X (forget_boot b) p g = forget_state (bootstrap_GLS X b p g).
  Proof.
    unfold bootstrap_GLS. set (g0 := match l_random_state p with Some _ => _ | None => _ end).
    change (b_dt (set_settings (forget_boot b) p)) with (b_dt b). change (b_dt (set_settings b p)) with (b_dt b).
    destruct (find_regime (l_start_dt p) 0 (b_dt b)) as [dr|e]; [|reflexivity].
    change (generate_covariance_matrix X (set_settings (forget_boot b) p) p dr)
      with (generate_covariance_matrix X (set_settings b p) p dr).
    destruct (generate_covariance_matrix X (set_settings b p) p dr) as [[raw|] [cov|e]]; try reflexivity.
    change (sample_gls X (set_covariance (set_settings (forget_boot b) p) cov) p dr cov g0)
      with (sample_gls X (set_covariance (set_settings b p) cov) p dr cov g0).
    destruct (sample_gls X (set_covariance (set_settings b p) cov) p dr cov g0) as [g' [chain|e]]; [|reflexivity].
    destruct (column 0 chain) as [gr|e]; [|reflexivity].
    destruct (l_fit_intercept p); [|reflexivity]. destruct (column 1 chain); reflexivity.
  Qed.
  Lemma C62_fits_proof b g (c : call (RS := RS)) : run_call X (forget_boot b) g c = forget_state (run_call X b g c).
  Proof.
    destruct c as [p|p|k p t vol]; cbn [run_call].
    - unfold diffusion. rewrite gls_forget. destruct (bootstrap_GLS X b p g) as [[b1 g1] [[]|e]]; [|reflexivity].
      cbn [forget_state fst snd]. cbn [forget_boot b_gradient]. destruct (samples_of (b_gradient b1)); reflexivity.
    - unfold jump_diffusion. rewrite gls_forget. destruct (bootstrap_GLS X b p g) as [[b1 g1] [[]|e]]; [|reflexivity].
      cbn [forget_state fst snd]. cbn [forget_boot b_gradient b_displacements]. destruct (samples_of (b_gradient b1)); [|reflexivity].
      destruct (py_index (b_displacements b1) 0) as [d0|e]; reflexivity.
    - unfold conductivity. rewrite gls_forget. destruct (bootstrap_GLS X b p g) as [[b1 g1] [[]|e]]; [|reflexivity].
      cbn [forget_state fst snd]. cbn [forget_boot b_gradient]. destruct (samples_of (b_gradient b1)); reflexivity.
  Qed.
End Option.
Section OptionTotal.
  Context {G Seed RS : Type} (X : Ext R G Seed RS).
  Hypothesis HX : draws_in_range X.
  Lemma resample_total g (l : list R) n : l <> [] -> 1 <= n -> exists s g', resample X g l n = Ok (s, g').
  Proof.
    intros Hl Hn. unfold resample. destruct (n <? 1) eqn:E; [apply Z.ltb_lt in E; lia|].
    destruct l as [|x0 l0] eqn:El; [contradiction|]. rewrite <- El in *. clear Hl E.
    pose proof (HX g (length l) (Z.to_nat n)) as F. destruct (x_randints X g (length l) (Z.to_nat n)) as [ix g'].
    cbn [fst] in F. specialize (F ltac:(rewrite El; cbn; lia)).
    rewrite (mapM_total _ (fun i => nth i l 0%R)); [eexists; eexists; reflexivity|].
    intros i Hi. rewrite Forall_forall in F. rewrite (nth_error_nth' l 0%R (F i Hi)). reflexivity.
  Qed.
  Lemma bootstrap_n_total (l : list R) ns : l <> [] -> (1 <= ns)%R -> forall k g, exists v g', bootstrap_n X g l ns k = Ok (v, g').
  Proof.
    intros Hl Hn. induction k as [|k IH]; intros g; cbn [bootstrap_n]; [eexists; eexists; reflexivity|].
    unfold py_int. numR. cbn [opt_res bind]. destruct (resample_total g l (Rtrunc ns) Hl) as (s & g1 & ->).
    { rewrite Rtrunc_pos by lra. pose proof (Rfloor_bounds ns). assert (0 < IZR (Rfloor ns))%R by lra. apply lt_IZR in H0. lia. }
    cbn [bind]. destruct (IH g1) as (v & g2 & ->). eexists; eexists; reflexivity.
  Qed.
  Lemma resample_loop_total (l : list R) ns mr (alpha : R) : l <> [] -> (1 <= ns)%R -> forall fuel g values e,
    resample_loop X fuel g l ns mr alpha values <> Some (Raise e).
  Proof.
    intros Hl Hn. induction fuel as [|f IH]; intros g values e; cbn [resample_loop]; destruct (_ && _); try discriminate.
    destruct (bootstrap_n_total l ns Hl Hn 100 g) as (v & g' & ->). apply IH.
  Qed.
  Lemma sample_total g (l : list R) ns n_re mr (alpha : R) : l <> [] -> (1 <= ns)%R ->
    exists v w g', sample_until_normal X g l ns n_re mr alpha = Some (Ok (v, w, g')).
  Proof.
    intros Hl Hn. destruct (C39_proof X g l ns n_re mr alpha) as ([[[v w] g']|e] & E & _); [now exists v, w, g'|].
    exfalso. revert E. unfold sample_until_normal. destruct (bootstrap_n_total l ns Hl Hn (Z.to_nat n_re) g) as (v & g' & ->).
    now apply resample_loop_total.
  Qed.
  Lemma boot_step_boot u q ns n_o i d b b1 h h' : u_block u = false ->
    (forall no, nth_error n_o i = Some no -> (1 <= ns no (length (a_rows d)))%R) ->
    boot_step X (with_bootstrap u false) q ns n_o i d (forget_boot b) h = Ok (b1, h') ->
    forall g, exists b' g', boot_step X (with_bootstrap u true) q ns n_o i d b g = Ok (b', g') /\ forget_boot b' = b1.
  Proof.
    intros Hb Hn H g. revert H. unfold boot_step.
    cbn [with_bootstrap u_bootstrap u_block u_n_resamples u_max_resamples u_alpha forget_boot b_slice b_v b_delta_t]. rewrite Hb.
    intros H. inv_bind H ds E1. rewrite E1. cbn [bind]. inv_bind H qs E2. rewrite E2. cbn [bind].
    destruct (length qs <=? 1)%nat eqn:Eq; [injection H as <- <-; exists b, g; split; reflexivity|].
    apply Nat.leb_gt in Eq. cbn [bind] in H. inv_bind H nv E4. destruct nv as [n v]. inv_bind E4 no Eno. rewrite Eno. cbn [bind].
    match type of E4 with Ok ?x = Ok ?y => assert (EE : x = y) by (revert E4; generalize x y; intros ? ? Z0; now injection Z0) end.
    pose proof (f_equal fst EE) as En. pose proof (f_equal snd EE) as Ev. cbn [fst snd] in En, Ev. clear E4 EE. subst n v.
    assert (N : nth_error n_o i = Some no).
    { rewrite py_index_nat in Eno. destruct (nth_error n_o i); [now injection Eno as ->|discriminate]. }
    destruct (sample_total g qs (ns no (length (a_rows d))) (u_n_resamples u) (u_max_resamples u) (u_alpha u)) as (vv & w & g' & ->);
      [destruct qs; [cbn in Eq; lia|discriminate]|now apply Hn|].
    cbn [bind]. inv_bind H vi E5. rewrite E5. cbn [bind]. inv_bind H dt E6. rewrite E6. cbn [bind].
    injection H as <- <-. eexists; eexists; split; [reflexivity|]. reflexivity.
  Qed.
  Lemma boot_loop_boot u q ns n_o : u_block u = false -> forall ds i b b1 h h',
    (forall k d no, nth_error ds k = Some d -> nth_error n_o (i + k) = Some no -> (1 <= ns no (length (a_rows d)))%R) ->
    boot_loop X (with_bootstrap u false) q ns n_o i ds (forget_boot b) h = Ok (b1, h') ->
    forall g, exists b' g', boot_loop X (with_bootstrap u true) q ns n_o i ds b g = Ok (b', g') /\ forget_boot b' = b1.
  Proof.
    intros Hb. induction ds as [|d ds IH]; intros i b b1 h h' Hn H g; cbn [boot_loop] in *.
    - injection H as <- <-. exists b, g. split; reflexivity.
    - inv_bind H bg E. destruct bg as [b2 h2].
      destruct (boot_step_boot u q ns n_o i d b b2 h h2 Hb) with (g := g) as (b3 & g3 & E3 & F3); [|exact E|].
      { intros no Hno. apply (Hn 0%nat d no); [reflexivity|now rewrite Nat.add_0_r]. }
      rewrite E3. cbn [bind]. rewrite <- F3 in H. eapply IH; [|exact H]. intros k d' no Hd Hno. apply (Hn (S k) d' no); [exact Hd|].
      now rewrite Nat.add_succ_r.
  Qed.
  Lemma C62_succeeds_proof u dts disps n_o b h h' : u_block u = false -> Forall (fun x => 1 <= x)%R n_o ->
    msd_bootstrap X (with_bootstrap u false) dts disps n_o h = Ok (b, h') ->
    forall g, exists b' g', msd_bootstrap X (with_bootstrap u true) dts disps n_o g = Ok (b', g') /\ forget_boot b' = b.
  Proof.
    intros Hb Hn H g. revert H. unfold msd_bootstrap. cbn [with_bootstrap u_sub_sample_dt u_dimension]. intros H.
    inv_bind H b0 E0. rewrite E0. cbn [bind]. inv_bind H bg E. destruct bg as [b1 h1]. injection H as <- <-.
    rewrite <- (init_forget _ _ _ _ _ _ E0) in E.
    destruct (boot_loop_boot u (fun (_ : Arr R) ds => Ok (d_squared ds)) (fun no (_ : nat) => no) n_o Hb (b_displacements b0) 0%nat b0 b1 h h1) with (g := g)
      as (b2 & g2 & E2 & F2); [|exact E|].
    - intros k d no _ Hno. rewrite Forall_forall in Hn. apply Hn. eapply nth_error_In; exact Hno.
    - change (b_displacements (forget_boot b0)) with (b_displacements b0) in E2. rewrite E2. cbn [bind].
      eexists; eexists; split; [reflexivity|]. rewrite <- F2. reflexivity.
  Qed.
End OptionTotal.
Lemma demo_in_range pv m0 : draws_in_range (demo_ext pv m0).
Proof. intros g n size Hn. cbn. apply Forall_forall. intros i Hi. apply repeat_spec in Hi. lia. Qed.
Lemma C62_example_proof : draws_in_range (demo_ext 1 1) /\ exists b g',
  msd_bootstrap (demo_ext 1 1) (with_bootstrap (demo_boot 1 "xyz") true) [1;2]%R demo_disps [4;3]%R 0%nat = Ok (b, g')
  /\ b_n b = [2; 4]%R /\ length (b_n_bootstrap b) = 2%nat.
Proof.
  split; [apply demo_in_range|].
  destruct (demo_msd (demo_ext 1 1) 0%nat) as (b0 & E & En & _).
  destruct (C62_succeeds_proof (demo_ext 1 1) (demo_in_range 1 1) (demo_boot 1 "xyz") [1;2]%R demo_disps [4;3]%R b0 0%nat 0%nat eq_refl)
    with (g := 0%nat) as (b & g' & E' & F).
  { repeat constructor; lra. }
  { exact E. }
  exists b, g'. split; [exact E'|]. assert (Nb : b_n b = [2;4]%R) by (rewrite <- En, <- F; reflexivity). split; [exact Nb|].
  destruct (msd_run (demo_ext 1 1) (with_bootstrap (demo_boot 1 "xyz") true) _ _ _ _ _ _ eq_refl E') as (axes & shown & _ & _ & _ & _ & _ & HR).
  rewrite (br_nb _ _ _ _ _ _ _ _ _ _ HR), map_length, (br_distr_len _ _ _ _ _ _ _ _ _ _ HR). cbn [with_bootstrap u_bootstrap].
  rewrite <- (br_n_len _ _ _ _ _ _ _ _ _ _ HR), Nb. reflexivity.
Qed.

(** ** Thinning *)
Lemma sub_stride {T} k (l l' : list T) : 0 < k -> sub_sample (Z.to_nat k) l l' -> py_stride k l = Ok l'.
Proof.
  intros Hk H. unfold py_stride. destruct (k =? 0) eqn:E1; [apply Z.eqb_eq in E1; lia|].
  destruct (0 <? k) eqn:E2; [|apply Z.ltb_ge in E2; lia]. f_equal. symmetry. apply list_ext. intros i. rewrite H.
  symmetry. apply nth_error_every. lia.
Qed.
Lemma structure_thin k (frames frames' : list (Frame R)) : 0 < k -> sub_sample (Z.to_nat k) frames frames' ->
  get_structure_coords_latt frames k = get_structure_coords_latt frames' 1.
Proof. intros Hk H. unfold get_structure_coords_latt. rewrite (sub_stride _ _ _ Hk H), py_stride_one. reflexivity. Qed.
Lemma structure_thin_mda k ka (frames frames' : list (Frame R)) : 0 < k -> sub_sample (Z.to_nat k) frames frames' ->
  get_structure_coords_latt_mda frames ka k = get_structure_coords_latt_mda frames' ka 1.
Proof. intros Hk H. unfold get_structure_coords_latt_mda. rewrite (sub_stride _ _ _ Hk H), py_stride_one. reflexivity. Qed.
Lemma C63_proof geo circ frames frames' a : let k := a_sub_sample_traj a in
  0 < k -> sub_sample (Z.to_nat k) frames frames' ->
  ase_parser geo circ frames a = ase_parser geo circ frames' (without_thinning a (a_step_skip a))
  /\ pymatgen_parser geo circ frames a = pymatgen_parser geo circ frames' (without_thinning a (a_step_skip a * k))
  /\ mda_parser geo circ frames a = mda_parser geo circ frames' (without_thinning a (a_step_skip a * k)).
Proof.
  intros k Hk H. subst k. split; [|split].
  - unfold ase_parser. rewrite (structure_thin _ frames frames' Hk H). reflexivity.
  - unfold pymatgen_parser. rewrite (structure_thin _ frames frames' Hk H).
    cbn [without_thinning a_sub_sample_traj a_step_skip]. rewrite Z.mul_1_r. reflexivity.
  - unfold mda_parser. cbn [without_thinning a_sub_sample_traj a_step_skip a_sub_sample_atoms a_specie_indices].
    rewrite (structure_thin_mda _ _ frames frames' Hk H), Z.mul_1_r. reflexivity.
Qed.
Lemma identical_ext {S S'} (parse : S -> Res (Parsed R)) (parse' : S' -> Res (Parsed R)) l l' :
  Forall2 (fun x x' => parse x = parse' x') l l' -> identical parse l = identical parse' l'.
Proof.
  intros H. unfold identical. replace (mapM parse l) with (mapM parse' l'); [reflexivity|].
  symmetry. induction H; cbn; [reflexivity|]. rewrite H, IHForall2. reflexivity.
Qed.
Lemma C63_replicas_proof geo circ ts ts' a : let k := a_sub_sample_traj a in
  0 < k -> Forall2 (sub_sample (Z.to_nat k)) ts ts' -> let dtype := Some "identical"%string in
  from_frames (fun fs => ase_parser geo circ fs a) (TMulti ts) dtype
    = from_frames (fun fs => ase_parser geo circ fs (without_thinning a (a_step_skip a))) (TMulti ts') dtype
  /\ from_frames (fun fs => pymatgen_parser geo circ fs a) (TMulti ts) dtype
    = from_frames (fun fs => pymatgen_parser geo circ fs (without_thinning a (a_step_skip a * k))) (TMulti ts') dtype
  /\ from_universe (fun fs => mda_parser geo circ fs a) (TMulti ts) dtype
    = from_universe (fun fs => mda_parser geo circ fs (without_thinning a (a_step_skip a * k))) (TMulti ts') dtype.
Proof.
  intros k Hk H dtype. unfold dtype, from_frames, from_universe. cbn.
  repeat split; apply identical_ext; induction H; constructor; auto; now apply C63_proof.
Qed.
Lemma C61_example_proof : forall circ, let a := hop_params 1 (PyFloat 1%R) (mkOptions (Some 1) (Some 3) 100 "linear" "multi-origin" 8 8)%R in
  exists p, ase_parser geomspace_R circ (hop_frames 3) a = Ok p /\ nth_error (p_intervals p) 0 = Some 1
    /\ ase_parser geomspace_R circ (hop_frames 3) (retime 1000 a) = Ok (retime_parsed 1000 p).
Proof.
  intros circ a. destruct (C07_refuted_proof circ) as (p & arr & H & _ & _ & H1 & _). exists p. split; [exact H|]. split; [exact H1|].
  rewrite C61_ase_proof by lra. fold a in H. rewrite H. reflexivity.
Qed.
Lemma C63_example_proof : sub_sample 2 (hop_frames 5) (frames_of ["Li"; "O"]%string 1%R 3 2 (fun f => hop (f * 2)) (fun _ => unit_cell)).
Proof.
  intros i. do 3 (destruct i as [|i]; [reflexivity|]). rewrite (proj2 (nth_error_None _ _)), (proj2 (nth_error_None _ _)); [reflexivity|..];
    unfold hop_frames, frames_of, tab; rewrite map_length, seq_length; lia.
Qed.
