(** * ProofsIntercept: the fitted line has an intercept exactly when one is asked for (C101), and the
    coefficients of a trajectory from end to end (C37) *)
From Verif Require Import Base Spec SpecParser SpecStats SpecFit SpecAnalyzer ModelParser ModelDiffusion ModelHdf ModelAnalyzer
  Lemmas ProofsDisp ProofsIntervals ProofsWindows ProofsParser ProofsTraj ProofsBoot ProofsStats ProofsStats2 ProofsFit ProofsFit2 ProofsShape ProofsAnalyzer
  SpecRun SpecSym ProofsSym SpecGrid ProofsGrid SpecPool ProofsCollective ProofsPool SpecTrue ProofsTrue SpecColl ProofsColl ProofsReplica ProofsSampler ProofsNernst SpecIntercept.
From Coq Require Import Reals Lra Lia.
Open Scope Z_scope.

(** ** C101 *)
Section Lengths.
  Context {G Seed RS : Type} (X : Ext R G Seed RS) (K : keeps_length X).
  Let sized (d : nat) (ws : list (@walker R)) := Forall (fun w => length (fst w) = d) ws.

  Lemma move_walkers_sized ll d : forall (ws : list (@walker R)) ps ws', sized d ws ->
    Forall (fun m : option (list R * R * R) => match m with Some (row, _, _) => length row = d | None => True end) ps ->
    move_walkers ll ws ps = Ok ws' -> sized d ws'.
  Proof.
    induction ws as [|w ws IH]; intros [|p ps] ws' Hw Hp H; cbn [move_walkers] in H; try (injection H as <-; exact Hw).
    inv_bind H w1 E1. inv_bind H rest E2. injection H as <-. inversion Hw as [|? ? Hw1 Hw2]; subst. inversion Hp as [|? ? Hp1 Hp2]; subst.
    constructor; [|exact (IH _ _ Hw2 Hp2 E2)]. unfold move_walker in E1. destruct p as [[[q f] u]|]; [|injection E1 as <-; reflexivity || exact Hw1].
    inv_bind E1 lp E3. injection E1 as <-. destruct (accepts _ _ _ _); [exact Hp1|reflexivity || exact Hw1].
  Qed.
  Lemma half_step_sized ll d ws g ws' g' : sized d ws -> half_step X ll ws g = Ok (ws', g') -> sized d ws'.
  Proof.
    intros Hw H. unfold half_step in H. pose proof (kl_proposal X K g d (map fst ws)) as P. destruct (x_propose X g (map fst ws)) as [ps g1] eqn:E.
    inv_bind H w1 F. injection H as <- _. refine (move_walkers_sized _ _ _ _ _ Hw _ F). apply P. apply Forall_map. exact Hw.
  Qed.
  Lemma run_chain_sized ll d steps : forall ws g chain, sized d ws -> run_chain X ll steps ws g = Ok chain ->
    Forall (Forall (fun row => length row = d)) chain.
  Proof.
    induction steps as [|s IH]; intros ws g chain Hw H; cbn [run_chain] in H; [injection H as <-; constructor|].
    inv_bind H r1 E1. destruct r1 as [ws1 g1]. inv_bind H r2 E2. destruct r2 as [ws2 g2]. inv_bind H rest E3. injection H as <-.
    pose proof (half_step_sized _ _ _ _ _ _ Hw E1) as H1. pose proof (half_step_sized _ _ _ _ _ _ H1 E2) as H2.
    constructor; [apply Forall_map; exact H2|]. exact (IH _ _ _ H2 E3).
  Qed.
  Lemma run_mcmc_sized ll pos nd steps g chain d : Forall (fun row => length row = d) pos -> run_mcmc X ll pos nd steps g = Ok chain ->
    Forall (Forall (fun row => length row = d)) chain.
  Proof.
    intros Hp H. unfold run_mcmc in H. inv_bind H u1 E1. inv_bind H lps E2. inv_bind H u2 E3. inv_bind H u3 E4. inv_bind H u4 E5.
    refine (run_chain_sized _ _ _ _ _ _ _ H). apply Forall_forall. intros [x lp] Hx. apply in_combine_l in Hx. rewrite Forall_forall in Hp. exact (Hp x Hx).
  Qed.
  Lemma initial_sized ml noise : Forall (fun row => length row = length ml) noise -> Forall (fun row => length row = length ml) (@initial_positions R _ ml noise).
  Proof.
    intros H. unfold initial_positions. apply Forall_map. refine (Forall_impl _ _ H). intros row Hr. cbn beta. unfold zip_with. rewrite map_length, combine_length, Hr. apply Nat.min_id.
  Qed.
  Lemma sample_sized b p r cov g g1 flat : sample_gls X b p r cov g = (g1, Ok flat) ->
    Forall (fun row => length row = if l_fit_intercept p then 2 else 1)%nat flat.
  Proof.
    intros H. unfold sample_gls in H.
    destruct (x_logdet X cov) as [ld|]; [|discriminate]. cbn [bind] in H.
    destruct (x_pinvh X cov) as [w|]; [|discriminate]. cbn [bind] in H.
    destruct (x_linregress X _ _) as [slope|]; [|discriminate]. cbn [bind] in H.
    destruct (x_minimize X _ _) as [ml|] eqn:E4; [|discriminate]. cbn [bind] in H.
    apply (kl_optimum X K) in E4.
    pose proof (kl_noise X K g (Z.to_nat (l_n_walkers p)) (length ml)) as N.
    destruct (x_randn X g _ _) as [noise g2]. injection H as <- H. inv_bind H chain E5.
    assert (L : length ml = if l_fit_intercept p then 2%nat else 1%nat) by (rewrite E4; now destruct (l_fit_intercept p)).
    pose proof (run_mcmc_sized _ _ _ _ _ _ _ (initial_sized ml noise N) E5) as C. rewrite L in C.
    apply Forall_forall. intros th Hin. destruct (get_chain_In _ _ _ _ _ H Hin) as (rows & H1 & H2).
    rewrite Forall_forall in C. specialize (C rows H1). rewrite Forall_forall in C. exact (C th H2).
  Qed.
End Lengths.
Lemma column_pairs : forall (m : list (list R)) gr ic, Forall (fun row => length row = 2%nat) m -> column 0 m = Ok gr -> column 1 m = Ok ic ->
  m = lines_with gr ic /\ length ic = length gr.
Proof.
  unfold column, lines_with. induction m as [|row m IH]; intros gr ic H E0 E1; cbn [mapM] in E0, E1.
  - injection E0 as <-. injection E1 as <-. split; reflexivity.
  - inversion H as [|? ? H1 H2]; subst. destruct row as [|x [|y [|]]]; try discriminate.
    change (py_index [x; y] 0) with (@Ok R x) in E0. change (py_index [x; y] 1) with (@Ok R y) in E1. cbn [bind] in E0, E1.
    inv_bind E0 gt F0. inv_bind E1 it F1. injection E0 as <-. injection E1 as <-. destruct (IH _ _ H2 F0 F1) as [-> L].
    cbn [combine map fst snd length]. split; [reflexivity|lia].
Qed.
Lemma column_single : forall (m : list (list R)) gr, Forall (fun row => length row = 1%nat) m -> column 0 m = Ok gr -> m = lines_through_origin gr.
Proof.
  unfold column, lines_through_origin. induction m as [|row m IH]; intros gr H E0; cbn [mapM] in E0.
  - now injection E0 as <-.
  - inversion H as [|? ? H1 H2]; subst. destruct row as [|x [|]]; try discriminate. change (py_index [x] 0) with (@Ok R x) in E0. cbn [bind] in E0.
    inv_bind E0 gt F0. injection E0 as <-. rewrite (IH _ H2 F0) at 1. reflexivity.
Qed.
Section Intercepts.
  Context {G Seed RS : Type} (X : Ext R G Seed RS) (K : keeps_length X).
  Lemma chain_sized b p g b' g' chain : bootstrap_GLS X b p g = (b', g', Ok tt) -> b_flatchain b' = Some chain ->
    Forall (fun row => length row = if l_fit_intercept p then 2 else 1)%nat chain.
  Proof.
    intros H E. assert (C := gls_cases X b p g). rewrite H in C. inversion C as [| | | |r g0 g1 raw cov ch gr ic F E0 EG ES EC EI]; subst.
    cbn [set_fit b_flatchain] in E. injection E as <-. exact (sample_sized X K _ _ _ _ _ _ _ ES).
  Qed.
  Lemma C101_intercept_proof b p g b' g' : l_fit_intercept p = true -> bootstrap_GLS X b p g = (b', g', Ok tt) ->
    exists gr ic, b_gradient b' = Some gr /\ b_intercept b' = Some ic /\ length ic = length gr /\ b_flatchain b' = Some (lines_with gr ic).
  Proof.
    intros Hf H. destruct (gls_ok_gradient X _ _ _ _ _ H) as (chain & gr & E1 & E2 & E3 & E4 & _). destruct (E4 Hf) as (ic & E5 & E6).
    pose proof (chain_sized _ _ _ _ _ _ H E1) as S. rewrite Hf in S. destruct (column_pairs _ _ _ S E3 E6) as [E7 E8].
    exists gr, ic. rewrite <- E7. repeat split; assumption.
  Qed.
  Lemma C101_origin_proof b p g b' g' : l_fit_intercept p = false -> bootstrap_GLS X b p g = (b', g', Ok tt) ->
    exists gr, b_gradient b' = Some gr /\ b_intercept b' = None /\ b_flatchain b' = Some (lines_through_origin gr).
  Proof.
    intros Hf H. destruct (gls_ok_gradient X _ _ _ _ _ H) as (chain & gr & E1 & E2 & E3 & _ & E4).
    pose proof (chain_sized _ _ _ _ _ _ H E1) as S. rewrite Hf in S.
    exists gr. rewrite <- (column_single _ _ S E3). repeat split; auto.
  Qed.
  Definition same_line (b b' : Boot R) : Prop := b_gradient b' = b_gradient b /\ b_intercept b' = b_intercept b /\ b_flatchain b' = b_flatchain b.
  Lemma call_line b g (c : call (RS := RS)) b' g' : run_call X b g c = (b', g', Ok tt) -> exists b1, bootstrap_GLS X b (settings c) g = (b1, g', Ok tt) /\ same_line b1 b'.
  Proof.
    destruct c as [p|p|k p t vol]; cbn [run_call settings]; intros H.
    - destruct (diffusion_ok X _ _ _ _ _ H) as (b1 & gr & E & _ & ->). exists b1. now repeat split.
    - destruct (jump_ok X _ _ _ _ _ H) as (b1 & gr & d0 & E & _ & _ & ->). exists b1. now repeat split.
    - destruct (conductivity_ok X _ _ _ _ _ _ _ _ H) as (b1 & gr & E & _ & ->). exists b1. now repeat split.
  Qed.
  Lemma C101_call_proof b g (c : call (RS := RS)) b' g' : l_fit_intercept (settings c) = true -> run_call X b g c = (b', g', Ok tt) ->
    exists gr ic, b_gradient b' = Some gr /\ b_intercept b' = Some ic /\ length ic = length gr /\ b_flatchain b' = Some (lines_with gr ic).
  Proof. intros Hf H. destruct (call_line _ _ _ _ _ H) as (b1 & E & -> & -> & ->). exact (C101_intercept_proof _ _ _ _ _ Hf E). Qed.
  Lemma C101_origin_call_proof b g (c : call (RS := RS)) b' g' : l_fit_intercept (settings c) = false -> run_call X b g c = (b', g', Ok tt) ->
    exists gr, b_gradient b' = Some gr /\ b_intercept b' = None /\ b_flatchain b' = Some (lines_through_origin gr).
  Proof. intros Hf H. destruct (call_line _ _ _ _ _ H) as (b1 & E & -> & -> & ->). exact (C101_origin_proof _ _ _ _ _ Hf E). Qed.
End Intercepts.

(** The demonstration routines with an optimiser for any number of parameters. *)
Definition sized_ext (m0 : R) : Ext R nat nat nat :=
  mkExt sqrt (fun g _ size => (repeat 0%nat size, S g)) (fun _ => 1%R) (fun _ => (0%R, 0%R)) (fun rs => rs) (fun s => s)
    (fun _ _ _ => Ok 1%R)
    (fun m => Ok (repeat 1%R (length m), repeat (repeat 1%R (length m)) (length m)))
    (fun m => Ok m) (fun _ => Ok 0%R) (ln (2 * PI)) (fun m => Ok m) (fun _ _ => Ok 1%R)
    (fun _ x0 => Ok (match x0 with [] => [] | _ :: t => m0 :: repeat 0%R (length t) end))
    (fun g rows cols => (repeat (repeat 0%R cols) rows, S g)) (fun _ => true) (fun g _ => ([], S g))
    (fun g mu _ n => (repeat mu n, S g)).
Lemma sized_keeps m0 : keeps_length (sized_ext m0).
Proof.
  split.
  - intros f x0 ml H. cbn in H. injection H as <-. destruct x0; [reflexivity|]. cbn. now rewrite repeat_length.
  - intros g r c. cbn. apply Forall_forall. intros row Hr. apply repeat_spec in Hr. subst row. apply repeat_length.
  - intros g d pos _. constructor.
Qed.
Lemma sized_gls m0 (f : bool) g : bootstrap_GLS (sized_ext m0) demo_data (demo_fit 1 f) g = bootstrap_GLS (demo_ext 1 m0) demo_data (demo_fit 1 f) g.
Proof.
  unfold bootstrap_GLS. destruct (find_regime _ _ _) as [r|e]; [|reflexivity].
  change (generate_covariance_matrix (sized_ext m0)) with (generate_covariance_matrix (demo_ext 1 m0)).
  destruct (generate_covariance_matrix _ _ _ r) as [[raw|] [cov|e]]; try reflexivity.
  assert (E : forall b' g', sample_gls (sized_ext m0) b' (demo_fit 1 f) r cov g' = sample_gls (demo_ext 1 m0) b' (demo_fit 1 f) r cov g').
  { intros b' g'. unfold sample_gls. cbn [sized_ext demo_ext x_linregress x_minimize x_logdet x_pinvh bind demo_fit l_fit_intercept]. destruct f; reflexivity. }
  rewrite E. reflexivity.
Qed.
Lemma first_one : first_at_least 1 [1;2]%R 0.
Proof. exists 1%R. split; [reflexivity|split; [lra|intros i y Hi; lia]]. Qed.
Lemma C101_example_proof : keeps_length (sized_ext 6) /\ forall g,
  (exists b, bootstrap_GLS (sized_ext 6) demo_data (demo_fit 1 true) g = (b, 8%nat, Ok tt) /\ b_intercept b = Some (repeat 0%R 4) /\ b_flatchain b = Some (repeat [6; 0]%R 4))
  /\ (exists b, bootstrap_GLS (sized_ext 6) demo_data (demo_fit 1 false) g = (b, 8%nat, Ok tt) /\ b_intercept b = None /\ b_flatchain b = Some (repeat [6]%R 4)).
Proof.
  split; [apply sized_keeps|]. intros g. split; rewrite sized_gls.
  - destruct (demo_gls 1 6 true 1 0 g first_one) as (cov & E & _). eexists. split; [exact E|]. split; reflexivity.
  - destruct (demo_gls 1 6 false 1 0 g first_one) as (cov & E & _). eexists. split; [exact E|]. split; reflexivity.
Qed.

(** ** C37 from end to end *)
Lemma read_stored_volume i circ cell types vol n natoms k x a p : faithful_read i circ cell types vol n natoms k x a p -> p_volume p = Some vol.
Proof.
  intros F. destruct (read_core _ _ _ _ _ _ _ _ _ _ _ F) as (st & coords & latt & q & _ & V & _ & Ef & ->).
  pose proof (finish_volume _ _ _ _ _ _ _ _ Ef) as E. rewrite V in E. destruct i; exact E.
Qed.
Lemma named_axes s axes : names s axes -> (0 < length axes)%nat.
Proof. intros (_ & H & _). destruct axes; [congruence|cbn; lia]. Qed.
Section Ends.
  Context {G Seed RS : Type} (X : Ext R G Seed RS).
  Lemma C37_D_proof d u axes g an g1 l g2 an' g3 : 0 < u_sub_sample_dt u -> names (pystr_text (u_dimension u)) axes ->
    diffusion_analyzer X d u g = Ok (an, g1) -> an_diffusion X an l g2 = (an', g3, Ok tt) ->
    exists gr, b_gradient (an_diff an') = Some gr /\ b_D (an_diff an') = Some (map (fun s => in_cm2_per_s (einstein (length axes) s)) gr).
  Proof.
    intros Hk Hn H HD. unfold diffusion_analyzer in H. inv_bind H r E. destruct r as [b h]. injection H as <- <-.
    destruct (msd_run X _ _ _ _ _ _ _ Hk E) as (axes' & shown & N & Ed & _). rewrite (names_unique _ _ _ N Hn) in Ed.
    unfold an_diffusion in HD. cbn [an_diff an_data] in HD. destruct (diffusion X b l g2) as [[b' h'] o] eqn:ED. injection HD as <- <- ->. cbn [an_diff].
    rewrite <- Ed. apply (C37_diffusion_proof X b l g2 b' h'); [|exact ED]. rewrite Ed. exact (named_axes _ _ Hn).
  Qed.
  Lemma C37_DJ_proof i circ cell types vol n natoms k x a p u axes g an g1 l g2 an' g3 : faithful_read i circ cell types vol n natoms k x a p -> p_indices p <> [] ->
    0 < u_sub_sample_dt u -> names (pystr_text (u_dimension u)) axes ->
    jump_diffusion_analyzer X (of_parsed p) u g = Ok (an, g1) -> an_jump_diffusion X an l g2 = (an', g3, Ok tt) ->
    exists gr, b_gradient (an_diff an') = Some gr
      /\ b_DJ (an_diff an') = Some (map (fun s => in_cm2_per_s (einstein (length axes) s) / INR (length (p_indices p)))%R gr).
  Proof.
    intros F Hi Hk Hn H HD. destruct (read_forms _ _ _ _ _ _ _ _ _ _ _ F) as (tis & RF). destruct (form_shape _ _ _ _ _ _ _ _ _ _ RF) as [W L].
    unfold jump_diffusion_analyzer in H. inv_bind H r E. destruct r as [b h]. injection H as <- <-.
    destruct (mstd_run X _ _ _ _ _ _ _ Hk W E) as (axes' & shown & N & Ed & ES & _). rewrite (names_unique _ _ _ N Hn) in Ed.
    unfold an_jump_diffusion in HD. cbn [an_diff an_data] in HD. destruct (jump_diffusion X b l g2) as [[b' h'] o] eqn:ED. injection HD as <- <- ->. cbn [an_diff].
    destruct (jump_ok X _ _ _ _ _ ED) as (b1 & gr & d0 & _ & _ & E0 & _).
    assert (L0 : length (a_rows d0) = length (p_indices p)).
    { rewrite Forall_forall in L. apply L. apply (sub_sample_In _ _ _ _ ES). eapply nth_error_In. exact E0. }
    rewrite <- Ed, <- L0. apply (C37_jump_proof X b l g2 b' h' d0); [|exact E0| |exact ED].
    - rewrite Ed. exact (named_axes _ _ Hn).
    - rewrite L0. destruct (p_indices p); [congruence|cbn; lia].
  Qed.
  Lemma C37_S_proof i circ cell types vol n natoms k x a p q u axes g an g1 c l t g2 an' g3 : faithful_read i circ cell types vol n natoms k x a p ->
    (forall z, q = QArray z -> length z = length (p_indices p)) ->
    0 < u_sub_sample_dt u -> names (pystr_text (u_dimension u)) axes -> k_NA c <> 0%R -> k_R c <> 0%R -> t <> 0%R -> vol <> 0%R ->
    conductivity_analyzer X (of_parsed p) q u g = Ok (an, g1) -> an_conductivity X c an l t g2 = (an', g3, Ok tt) ->
    exists gr, b_gradient (an_diff an') = Some gr
      /\ b_sigma (an_diff an') = Some (map (fun s => in_milli (nernst_einstein (k_NA c) (k_e c) (k_R c) (in_cm3 vol) t (in_cm2_per_s (einstein (length axes) s)))) gr).
  Proof.
    intros F Hq Hk Hn N1 N2 N3 N4 H HD. destruct (read_forms _ _ _ _ _ _ _ _ _ _ _ F) as (tis & RF). destruct (form_shape _ _ _ _ _ _ _ _ _ _ RF) as [W L].
    unfold conductivity_analyzer in H. inv_bind H r E. destruct r as [b h]. injection H as <- <-.
    destruct (mscd_run X _ _ _ _ _ _ _ _ _ Hk W L Hq E) as (axes' & shown & N & Ed & _). rewrite (names_unique _ _ _ N Hn) in Ed.
    unfold an_conductivity in HD. cbn [an_diff an_data of_parsed an_volume] in HD. rewrite (read_stored_volume _ _ _ _ _ _ _ _ _ _ _ F) in HD.
    destruct (conductivity X c b l t vol g2) as [[b' h'] o] eqn:ED. injection HD as <- <- ->. cbn [an_diff].
    rewrite <- Ed. apply (C37_sigma_proof X c b l t vol g2 b' h'); [|assumption..|exact ED]. rewrite Ed. exact (named_axes _ _ Hn).
  Qed.
End Ends.

(** The Li atom of the walk example, its charge and two fits from end to end. *)
Lemma C37_ends_example_proof circ g : exists p jn jn' cn cn',
  faithful_read Ase circ unit_cell ["Li"; "O"]%string 1%R 4 2 1 (walk steady) walk_params p /\ p_indices p = [0]
  /\ jump_diffusion_analyzer (demo_ext 1 6) (of_parsed p) (demo_boot 1 "xyz") g = Ok (jn, g) /\ an_jump_diffusion (demo_ext 1 6) jn (demo_fit 1 true) g = (jn', 8%nat, Ok tt)
  /\ conductivity_analyzer (demo_ext 1 6) (of_parsed p) (QScalar 1%R) (demo_boot 1 "xyz") g = Ok (cn, g)
  /\ an_conductivity (demo_ext 1 6) (mkConsts 1 1 1)%R cn (demo_fit 1 true) 300%R g = (cn', 8%nat, Ok tt).
Proof.
  destruct (walk_read circ steady steady_gentle) as (p & F & E1 & E2 & E3 & E4 & E5 & E6 & E7 & E8).
  destruct (read_forms _ _ _ _ _ _ _ _ _ _ _ F) as (tis & RF). destruct (form_shape _ _ _ _ _ _ _ _ _ _ RF) as [W L].
  destruct (three_run (demo_ext 1 6) p (QScalar 1%R) g ltac:(now rewrite E4) E5 E6 E7 E8 W L ltac:(discriminate)) as (_ & jn & cn & _ & A & C & _ & T & T').
  rewrite E4 in T, T'. cbn [firstn] in T, T'.
  exists p, jn.
  assert (J : exists jn', an_jump_diffusion (demo_ext 1 6) jn (demo_fit 1 true) g = (jn', 8%nat, Ok tt)).
  { pose proof A as A0. unfold jump_diffusion_analyzer in A0. inv_bind A0 r B. destruct r as [b h]. injection A0 as <- _. cbn [an_diff] in T.
    destruct (mstd_run _ (demo_boot 1 "xyz") _ _ _ _ _ _ eq_refl W B) as (ax & shown & _ & _ & N3 & _ & N5 & N6).
    assert (LS : length shown = 1%nat) by (rewrite <- (br_dt_len _ _ _ _ _ _ _ _ _ _ N6), T; reflexivity).
    destruct (demo_one_gls 1 6 b true g T) as (b' & Fb & Gr & Dp).
    { rewrite (br_v_len _ _ _ _ _ _ _ _ _ _ N6). exact LS. }
    { rewrite N5, firstn_length, LS. cbn [of_parsed an_n_o]. rewrite E6. reflexivity. }
    unfold an_jump_diffusion, jump_diffusion. cbn [an_diff an_data]. rewrite Fb, Gr, Dp. cbn [samples_of opt_res].
    change (Z.to_nat _) with 1%nat in N3. apply sub_sample_id in N3. cbn [of_parsed an_disp_3d] in N3. rewrite N3.
    destruct (p_disp_3d p) as [|d0 ds]; [discriminate|]. change (py_index (d0 :: ds) 0) with (Ok d0). eexists. reflexivity. }
  assert (K : exists cn', an_conductivity (demo_ext 1 6) (mkConsts 1 1 1)%R cn (demo_fit 1 true) 300%R g = (cn', 8%nat, Ok tt)).
  { pose proof C as A0. unfold conductivity_analyzer in A0. inv_bind A0 r B. destruct r as [b h]. injection A0 as <- _. cbn [an_diff] in T'.
    destruct (mscd_run _ (demo_boot 1 "xyz") _ _ (QScalar 1%R) _ _ _ _ (length (p_indices p)) eq_refl W L ltac:(discriminate) B) as (ax & shown & _ & _ & N3 & _ & N5 & N6).
    assert (LS : length shown = 1%nat) by (rewrite <- (br_dt_len _ _ _ _ _ _ _ _ _ _ N6), T'; reflexivity).
    destruct (demo_one_gls 1 6 b true g T') as (b' & Fb & Gr & Dp).
    { rewrite (br_v_len _ _ _ _ _ _ _ _ _ _ N6). exact LS. }
    { rewrite N5, firstn_length, LS. cbn [of_parsed an_n_o]. rewrite E6. reflexivity. }
    eexists. unfold an_conductivity, conductivity. cbn [an_diff an_data of_parsed an_volume]. rewrite (read_stored_volume _ _ _ _ _ _ _ _ _ _ _ F), Fb, Gr.
    cbn [samples_of opt_res]. reflexivity. }
  destruct J as (jn' & J). destruct K as (cn' & K). exists jn', cn, cn'. repeat (split; [assumption|]). exact K.
Qed.
