(** * ProofsStart: C38 from the behaviour of the optimiser *)
From Verif Require Import Base Spec SpecParser SpecStats SpecFit ModelParser ModelDiffusion ModelHdf ModelAnalyzer
  Lemmas ProofsWindows ProofsParser ProofsBoot ProofsStats ProofsCov ProofsFit ProofsFit2 SpecRun SpecStart.
From Coq Require Import Reals Lra Lia Psatz.
Open Scope Z_scope.

Section Start.
  Context {G Seed RS : Type} (X : Ext R G Seed RS).
  Hypothesis HD : goes_downhill X.
  Hypothesis HN : ordinary_noise X.

  Lemma start_finite dts ns (ld : R) inv slope (f : bool) : (0 <= slope)%R ->
    exists l, log_likelihood dts ns ld inv (if f then [slope; tiny] else [slope]) = Ok (Some l).
  Proof.
    intros Hs. unfold log_likelihood.
    assert (E0 : py_index (if f then [slope; tiny] else [slope]) 0 = Ok slope) by (destruct f; reflexivity). rewrite E0. cbn [bind].
    assert (E1 : (slope <? n0)%num = false) by (numR; apply Rltb_false; exact Hs). rewrite E1.
    destruct f; cbn [straight_line bind]; eexists; reflexivity.
  Qed.
  Lemma optimum_ok dts ns (ld : R) inv slope (f : bool) ml : (0 <= slope)%R ->
    x_minimize X (fun th => let! l := log_likelihood dts ns ld inv th in Ok (option_map nopp l)) (if f then [slope; tiny] else [slope]) = Ok ml ->
    gradient_ok ml.
  Proof.
    intros Hs E. destruct (start_finite dts ns ld inv slope f Hs) as (l & El).
    assert (E0 : (fun th => let! l := log_likelihood dts ns ld inv th in Ok (option_map nopp l)) (if f then [slope; tiny] else [slope]) = Ok (Some (nopp l))).
    { cbv beta. rewrite El. reflexivity. }
    destruct (HD _ _ _ _ E0 E) as (y & Ey & _). cbv beta in Ey. inv_bind Ey l' El'. destruct l' as [l'|]; [|discriminate].
    exact (gradient_cases _ _ _ _ _ _ El').
  Qed.
  Lemma start_gls_proof b p g b' g' : bootstrap_GLS X b p g = (b', g', Ok tt) -> exists gr, b_gradient b' = Some gr /\ all_ge 0 gr.
  Proof.
    intros H. assert (K := gls_cases X b p g). rewrite H in K.
    inversion K as [| | | |r g0 g1 raw cov chain gr ic F E0 EG ES EC EI]; subst.
    exists gr. split; [reflexivity|]. eapply column0_ok; [|exact EC].
    unfold sample_gls in ES. set (setup := bind _ _) in ES.
    destruct setup as [[ll ml]|e] eqn:Es; [|discriminate]. unfold setup in Es. clear setup.
    inv_bind Es ld E1. inv_bind Es inv E2. inv_bind Es slope E3. inv_bind Es ml' E4. injection Es as <- <-.
    destruct (x_randn X _ _ _) as [noise g2] eqn:En. injection ES as _ ES. inv_bind ES ch E5.
    assert (Hn := HN (match l_random_state p with Some rs => x_seed X (x_seed_of X rs) | None => g end)
                        (Z.to_nat (l_n_walkers p)) (length ml')).
    rewrite En in Hn. cbn [fst] in Hn.
    eapply C38_sampler_proof; [|exact E5|exact ES]. apply initial_ok; [|exact Hn].
    eapply optimum_ok; [|exact E4]. numR. destruct (Rltb slope 0) eqn:Eb.
    - unfold tiny. numR. lra.
    - now apply Rltb_false.
  Qed.
  Lemma start_diffusion_proof b p g b' g' : (0 < b_dims b)%nat -> diffusion X b p g = (b', g', Ok tt) ->
    exists d, b_D b' = Some d /\ all_ge 0 d.
  Proof.
    intros Hd H. destruct (diffusion_ok X _ _ _ _ _ H) as (b1 & gr & E & Eg & ->).
    destruct (start_gls_proof _ _ _ _ _ E) as (gr' & Eg' & Hg). rewrite Eg in Eg'. injection Eg' as <-.
    eexists. split; [reflexivity|]. rewrite diffusion_samples_units by exact Hd.
    apply Forall_forall. intros y Hy. apply in_map_iff in Hy as (x & <- & Hx). unfold all_ge in Hg. rewrite Forall_forall in Hg.
    specialize (Hg x Hx). unfold in_cm2_per_s, einstein, angstrom_in_cm, ps_in_s.
    assert (P : (0 < INR (b_dims b))%R) by (now apply lt_0_INR).
    apply Rmult_le_pos; [|lra]. apply Rle_mult_inv_pos; lra.
  Qed.
  Lemma start_jump_proof b p g b' g' : (0 < b_dims b)%nat ->
    Forall (fun d => 0 < length (a_rows d))%nat (b_displacements b) -> jump_diffusion X b p g = (b', g', Ok tt) ->
    exists d, b_DJ b' = Some d /\ all_ge 0 d.
  Proof.
    intros Hd Ha H. destruct (jump_ok X _ _ _ _ _ H) as (b1 & gr & d0 & E & Eg & E0 & ->).
    destruct (start_gls_proof _ _ _ _ _ E) as (gr' & Eg' & Hg). rewrite Eg in Eg'. injection Eg' as <-.
    assert (Hn : (0 < length (a_rows d0))%nat) by (rewrite Forall_forall in Ha; apply Ha; eapply nth_error_In; eauto).
    eexists. split; [reflexivity|]. rewrite jump_samples_units by assumption.
    apply Forall_forall. intros y Hy. apply in_map_iff in Hy as (x & <- & Hx). unfold all_ge in Hg. rewrite Forall_forall in Hg.
    specialize (Hg x Hx). unfold in_cm2_per_s, einstein, angstrom_in_cm, ps_in_s.
    assert (P : (0 < INR (b_dims b))%R) by (now apply lt_0_INR). assert (Q : (0 < INR (length (a_rows d0)))%R) by (now apply lt_0_INR).
    apply Rle_mult_inv_pos; [|exact Q]. apply Rmult_le_pos; [|lra]. apply Rle_mult_inv_pos; lra.
  Qed.
  Lemma start_sigma_proof k b p t vol g b' g' : (0 < b_dims b)%nat ->
    (0 < k_NA k)%R -> (0 < k_R k)%R -> (0 < t)%R -> (0 < vol)%R -> conductivity X k b p t vol g = (b', g', Ok tt) ->
    exists d, b_sigma b' = Some d /\ all_ge 0 d.
  Proof.
    intros Hd H1 H2 H3 H4 H. destruct (conductivity_ok X _ _ _ _ _ _ _ _ H) as (b1 & gr & E & Eg & ->).
    destruct (start_gls_proof _ _ _ _ _ E) as (gr' & Eg' & Hg). rewrite Eg in Eg'. injection Eg' as <-.
    eexists. split; [reflexivity|]. rewrite diffusion_samples_units by exact Hd. rewrite map_map.
    apply Forall_forall. intros y Hy. apply in_map_iff in Hy as (x & <- & Hx). unfold all_ge in Hg. rewrite Forall_forall in Hg.
    specialize (Hg x Hx). rewrite conversion_units by lra.
    unfold in_milli, nernst_einstein, in_cm3, in_cm2_per_s, einstein, angstrom_in_cm, ps_in_s.
    assert (P : (0 < INR (b_dims b))%R) by (now apply lt_0_INR).
    apply Rmult_le_pos; [|lra]. apply Rle_mult_inv_pos.
    - apply Rmult_le_pos; [nra|]. apply Rmult_le_pos; [|lra]. apply Rle_mult_inv_pos; lra.
    - apply Rmult_lt_0_compat; [|exact H3]. apply Rmult_lt_0_compat; [lra|]. apply Rdiv_lt_0_compat; assumption.
  Qed.
End Start.

(** ** A library that meets the assumptions although the data fall *)
(** The optimiser stays where it starts; the regression slope is -6. *)
Definition idle_ext : Ext R nat nat nat :=
  mkExt sqrt (fun g _ size => (repeat 0%nat size, S g)) (fun _ => 1%R) (fun _ => (0%R, 0%R)) (fun rs => rs) (fun s => s)
    (fun _ _ _ => Ok 1%R)
    (fun m => Ok (repeat 1%R (length m), repeat (repeat 1%R (length m)) (length m)))
    (fun m => Ok m) (fun _ => Ok 0%R) (ln (2 * PI)) (fun m => Ok m) (fun _ _ => Ok (-6)%R)
    (fun _ x0 => Ok x0)
    (fun g rows cols => (repeat (repeat 0%R cols) rows, S g)) (fun _ => true) (fun g _ => ([], S g))
    (fun g mu _ n => (repeat mu n, S g)).
Lemma idle_meets : goes_downhill idle_ext /\ ordinary_noise idle_ext.
Proof.
  split.
  - intros f x0 y0 ml E M. cbn in M. injection M as <-. exists y0. split; [exact E|lra].
  - intros g r c. destruct (demo_starts 1 6 ltac:(lra)) as [_ H]. exact (H g r c).
Qed.
Lemma idle_gls g : bootstrap_GLS idle_ext demo_data (demo_fit 1 false) g = bootstrap_GLS (demo_ext 1 tiny) demo_data (demo_fit 1 false) g.
Proof.
  unfold bootstrap_GLS. destruct (find_regime _ _ _) as [r|e]; [|reflexivity].
  change (generate_covariance_matrix idle_ext) with (generate_covariance_matrix (demo_ext 1 tiny)).
  destruct (generate_covariance_matrix _ _ _ r) as [[raw|] [cov|e]]; try reflexivity.
  assert (E : forall b' g', sample_gls idle_ext b' (demo_fit 1 false) r cov g' = sample_gls (demo_ext 1 tiny) b' (demo_fit 1 false) r cov g').
  { intros b' g'. unfold sample_gls. cbn [idle_ext demo_ext x_linregress x_minimize x_logdet x_pinvh bind demo_fit l_fit_intercept].
    assert (E1 : ((-6)%R <? n0)%num = true) by (numR; apply Rltb_true; lra). rewrite E1. reflexivity. }
  rewrite E. reflexivity.
Qed.
Lemma idle_runs g : exists b, bootstrap_GLS idle_ext demo_data (demo_fit 1 false) g = (b, 8%nat, Ok tt) /\ b_gradient b = Some (repeat tiny 4).
Proof.
  rewrite idle_gls. destruct (demo_gls 1 tiny false 1 0 g demo_first1) as (cov & E & _). eexists. split; [exact E|]. reflexivity.
Qed.
