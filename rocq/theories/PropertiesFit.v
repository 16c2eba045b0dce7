(** * PropertiesFit: C36-C40, C44, C47, C48

    [X] collects the external routines. What is assumed about them is part of each statement:
    [starts_positive X]: the optimiser returns a non-negative gradient and np.random.randn nothing
    below -1000; [randints_ok X], [draws_enough X]: random indices come in the requested number and
    range; [mvn_shape X]: scipy's sampler returns the requested number of rows; [matrix_shapes X]:
    eig and cov_nearest keep the size. [demo_ext] satisfies all of them. *)
From Verif Require Import Base Spec SpecParser SpecStats SpecFit ModelParser ModelDiffusion ModelHdf ModelAnalyzer
  ProofsStats ProofsCov ProofsFit ProofsFit2 SpecRun.
From Coq Require Import Reals Lra.
Open Scope Z_scope.

(** ** C36 *)

(** The outcome of a fit is a function of the data from the first dt at or above start_dt. *)
Theorem C36_fit_uses_suffix : forall G Seed RS (X : Ext R G Seed RS) b b1 p g r r1 b' g' o b1' g1' o1,
  first_at_least (l_start_dt p) (b_dt b) r -> first_at_least (l_start_dt p) (b_dt b1) r1 ->
  fit_data b r = fit_data b1 r1 ->
  bootstrap_GLS X b p g = (b', g', o) -> bootstrap_GLS X b1 p g = (b1', g1', o1) ->
  o = o1 /\ g' = g1'
  /\ (o = Ok tt -> b_gradient b' = b_gradient b1' /\ b_intercept b' = b_intercept b1'
                   /\ b_flatchain b' = b_flatchain b1' /\ b_covariance b' = b_covariance b1').
Proof. exact @C36_suffix_proof. Qed.
Print Assumptions C36_fit_uses_suffix.
Theorem C36_increasing_times : forall start dt r, ascending dt -> first_at_least start dt r -> skipn r dt = at_least start dt.
Proof. exact C36_increasing_proof. Qed.
Print Assumptions C36_increasing_times.
Theorem C36_no_data : forall G Seed RS (X : Ext R G Seed RS) b p g, (forall x, In x (b_dt b) -> (x < l_start_dt p)%R) ->
  exists b' g', bootstrap_GLS X b p g = (b', g', Raise IndexError)
    /\ same_statistics b b' /\ same_coefficients b b' /\ same_fit b b' /\ b_covariance b' = b_covariance b.
Proof. exact @C36_none_proof. Qed.
Print Assumptions C36_no_data.
Example C36_example : forall g,
  ((exists b, bootstrap_GLS (demo_ext 1 1) demo_data (demo_fit 2 true) g = (b, 8%nat, Ok tt) /\ b_gradient b = Some [1;1;1;1]%R)
   /\ fit_data demo_data 1 = ([2], [4], [1], [2])%R)
  /\ exists b, bootstrap_GLS (demo_ext 1 1) demo_data (demo_fit 3 true) g = (b, 7%nat, Raise IndexError).
Proof. intros g. split; [apply C36_example_proof|apply C36_none_example_proof]. Qed.

(** ** C37 *)
Theorem C37_diffusion_units : forall G Seed RS (X : Ext R G Seed RS) b p g b' g', (0 < b_dims b)%nat ->
  diffusion X b p g = (b', g', Ok tt) ->
  exists gr, b_gradient b' = Some gr /\ b_D b' = Some (map (fun x => in_cm2_per_s (einstein (b_dims b) x)) gr).
Proof. exact @C37_diffusion_proof. Qed.
Print Assumptions C37_diffusion_units.
Theorem C37_jump_units : forall G Seed RS (X : Ext R G Seed RS) b p g b' g' d0, (0 < b_dims b)%nat ->
  nth_error (b_displacements b) 0 = Some d0 -> (0 < length (a_rows d0))%nat ->
  jump_diffusion X b p g = (b', g', Ok tt) ->
  exists gr, b_gradient b' = Some gr
    /\ b_DJ b' = Some (map (fun x => in_cm2_per_s (einstein (b_dims b) x) / INR (length (a_rows d0)))%R gr).
Proof. exact @C37_jump_proof. Qed.
Print Assumptions C37_jump_units.
Theorem C37_conductivity_units : forall G Seed RS (X : Ext R G Seed RS) k b p t vol g b' g', (0 < b_dims b)%nat ->
  k_NA k <> 0%R -> k_R k <> 0%R -> t <> 0%R -> vol <> 0%R ->
  conductivity X k b p t vol g = (b', g', Ok tt) ->
  exists gr, b_gradient b' = Some gr
    /\ b_sigma b' = Some (map (fun x => in_milli (nernst_einstein (k_NA k) (k_e k) (k_R k) (in_cm3 vol) t
                                         (in_cm2_per_s (einstein (b_dims b) x)))) gr).
Proof. exact @C37_sigma_proof. Qed.
Print Assumptions C37_conductivity_units.
Theorem C37_conductivity_scaling : forall G Seed RS (X : Ext R G Seed RS) k b p t vol t' vol' g b1 g1 b2 g2 s,
  k_NA k <> 0%R -> k_R k <> 0%R -> t <> 0%R -> vol <> 0%R -> t' <> 0%R -> vol' <> 0%R ->
  conductivity X k b p t vol g = (b1, g1, Ok tt) -> conductivity X k b p t' vol' g = (b2, g2, Ok tt) ->
  b_sigma b1 = Some s -> b_sigma b2 = Some (map (fun x => x * (vol * t / (vol' * t')))%R s).
Proof. exact @C37_scaling_proof. Qed.
Print Assumptions C37_conductivity_scaling.
(** Gradient 6 square angstrom per picosecond in three dimensions is 1e-4 cm^2/s. *)
Example C37_example : forall g, exists b, diffusion (demo_ext 1 6) demo_data (demo_fit 1 true) g = (b, 8%nat, Ok tt)
  /\ b_D b = Some (repeat (/ 10000)%R 4).
Proof. exact C37_example_proof. Qed.

(** ** C38 *)

(** The sampler alone: every proposal and acceptance sequence is covered, since [x_propose X] is
    arbitrary. *)
Theorem C38_sampler_keeps_sign : forall G Seed RS (X : Ext R G Seed RS) dt n (ld : R) w pos nd steps g chain discard thin m,
  Forall gradient_ok pos -> run_mcmc X (log_likelihood dt n ld w) pos nd steps g = Ok chain ->
  get_chain chain discard thin = Ok m -> Forall gradient_ok m.
Proof. exact @C38_sampler_proof. Qed.
Print Assumptions C38_sampler_keeps_sign.
Theorem C38_gradient_not_negative : forall G Seed RS (X : Ext R G Seed RS) b p g b' g', starts_positive X ->
  bootstrap_GLS X b p g = (b', g', Ok tt) -> exists gr, b_gradient b' = Some gr /\ all_ge 0 gr.
Proof. exact @C38_gls_proof. Qed.
Print Assumptions C38_gradient_not_negative.
Theorem C38_D_not_negative : forall G Seed RS (X : Ext R G Seed RS) b p g b' g', starts_positive X -> (0 < b_dims b)%nat ->
  diffusion X b p g = (b', g', Ok tt) -> exists d, b_D b' = Some d /\ all_ge 0 d.
Proof. exact @C38_diffusion_proof. Qed.
Print Assumptions C38_D_not_negative.
Theorem C38_DJ_not_negative : forall G Seed RS (X : Ext R G Seed RS) b p g b' g', starts_positive X -> (0 < b_dims b)%nat ->
  Forall (fun d => (0 < length (a_rows d))%nat) (b_displacements b) ->
  jump_diffusion X b p g = (b', g', Ok tt) -> exists d, b_DJ b' = Some d /\ all_ge 0 d.
Proof. exact @C38_jump_proof. Qed.
Print Assumptions C38_DJ_not_negative.
Theorem C38_sigma_not_negative : forall G Seed RS (X : Ext R G Seed RS) k b p t vol g b' g', starts_positive X -> (0 < b_dims b)%nat ->
  (0 < k_NA k)%R -> (0 < k_R k)%R -> (0 < t)%R -> (0 < vol)%R ->
  conductivity X k b p t vol g = (b', g', Ok tt) -> exists d, b_sigma b' = Some d /\ all_ge 0 d.
Proof. exact @C38_sigma_proof. Qed.
Print Assumptions C38_sigma_not_negative.
(** The condition on the start is necessary: walkers started at a negative gradient may stay there. *)
Theorem C38_start_condition_needed : forall g, exists b d,
  diffusion (demo_ext 1 (-6)) demo_data (demo_fit 1 true) g = (b, 8%nat, Ok tt) /\ b_D b = Some d /\ ~ all_ge 0 d.
Proof. exact C38_needed_proof. Qed.
Print Assumptions C38_start_condition_needed.
Example C38_example : starts_positive (demo_ext 1 6).
Proof. apply demo_starts. lra. Qed.

(** ** C39 *)

(** The loop terminates (never [None]) and extends by 100 as long as, and only as long as, the
    p-value of what it has is below alpha and max_resamples is not reached. *)
Theorem C39_terminates : forall G Seed RS (X : Ext R G Seed RS) g (l : list R) ns n_re mr alpha,
  exists res, sample_until_normal X g l ns n_re mr alpha = Some res
    /\ forall v w g', res = Ok (v, w, g') -> extended X alpha mr (Z.to_nat n_re) v /\ w = (mr <=? Z.of_nat (length v)).
Proof. exact @C39_proof. Qed.
Print Assumptions C39_terminates.
Theorem C39_number_of_resamples : forall G Seed RS (X : Ext R G Seed RS) g (l : list R) ns n_re mr alpha v w g', 0 <= n_re ->
  sample_until_normal X g l ns n_re mr alpha = Some (Ok (v, w, g')) ->
  (exists k, Z.of_nat (length v) = n_re + 100 * k /\ 0 <= k)
  /\ (Z.of_nat (length v) = n_re \/ Z.of_nat (length v) < mr + 100)
  /\ (w = false -> (alpha <= x_normaltest X v)%R) /\ ((x_normaltest X v < alpha)%R -> w = true).
Proof. exact @C39_bound_proof. Qed.
Print Assumptions C39_number_of_resamples.
(** The warning depends on the length only, so it is also issued for a normal result. *)
Theorem C39_warning_refuted : exists (X : Ext R nat nat nat) g (l : list R) ns n_re mr alpha v g',
  sample_until_normal X g l ns n_re mr alpha = Some (Ok (v, true, g')) /\ (alpha <= x_normaltest X v)%R.
Proof. exact C39_warning_refuted_proof. Qed.
Print Assumptions C39_warning_refuted.
Example C39_example : exists v g',
  sample_until_normal (demo_ext 1 1) 0%nat [3;5]%R 2%R 2 10 (1/1000)%R = Some (Ok (v, false, g')) /\ v = [3;3]%R.
Proof. exact C40_example_proof. Qed.

(** ** C40 *)
Theorem C40_bootstrap_within_data : forall G Seed RS (X : Ext R G Seed RS) lo hi (l : list R) g ns n_re mr alpha v w g',
  draws_enough X -> all_between lo hi l -> sample_until_normal X g l ns n_re mr alpha = Some (Ok (v, w, g')) -> all_between lo hi v.
Proof. exact @C40_proof. Qed.
Print Assumptions C40_bootstrap_within_data.
Example C40_example : draws_enough (demo_ext 1 1) /\ all_between 3 5 [3;5]%R /\ all_between 3 5 [3;3]%R.
Proof. split; [apply demo_draws|]. split; repeat constructor; lra. Qed.

(** ** C44 *)
Theorem C44_independent_of_global_state : forall G Seed RS (X : Ext R G Seed RS) b p g g2, l_random_state p <> None ->
  bootstrap_GLS X b p g = bootstrap_GLS X b p g2.
Proof. exact @C44_gls_proof. Qed.
Print Assumptions C44_independent_of_global_state.
Theorem C44_methods : forall G Seed RS (X : Ext R G Seed RS) b p g g2 k t vol, l_random_state p <> None ->
  diffusion X b p g = diffusion X b p g2 /\ jump_diffusion X b p g = jump_diffusion X b p g2
  /\ conductivity X k b p t vol g = conductivity X k b p t vol g2.
Proof. exact @C44_methods_proof. Qed.
Print Assumptions C44_methods.
(** Only the seed word get_state()[1][1] of the random_state matters. *)
Theorem C44_seed_only : forall G Seed RS (X : Ext R G Seed RS) b p g g2 rs rs', x_seed_of X rs = x_seed_of X rs' ->
  bootstrap_GLS X b (with_state p (Some rs)) g = bootstrap_GLS X b (with_state p (Some rs')) g2.
Proof. exact @C44_seed_proof. Qed.
Print Assumptions C44_seed_only.
(** Repeating the call on an object that was fitted in the meantime gives the same fit: what earlier
    calls stored is irrelevant. *)
Theorem C44_repeated_calls : forall G Seed RS (X : Ext R G Seed RS) b b' p g, same_statistics b b' -> l_random_state p <> None ->
  forall g2 c1 h1 o1 c2 h2 o2, bootstrap_GLS X b p g = (c1, h1, o1) -> bootstrap_GLS X b' p g2 = (c2, h2, o2) ->
  o1 = o2 /\ h1 = h2 /\ (o1 = Ok tt -> b_gradient c1 = b_gradient c2 /\ b_intercept c1 = b_intercept c2
                                       /\ b_flatchain c1 = b_flatchain c2 /\ b_covariance c1 = b_covariance c2).
Proof. exact @gls_settings_proof. Qed.
Print Assumptions C44_repeated_calls.
Example C44_example : l_random_state (demo_fit 1 true) <> None /\ forall g, exists b,
  diffusion (demo_ext 1 6) demo_data (demo_fit 1 true) g = (b, 8%nat, Ok tt) /\ b_D b = Some (repeat (/ 10000)%R 4).
Proof. split; [discriminate|exact C37_example_proof]. Qed.

(** ** C47 *)
Theorem C47_fresh_objects : forall G Seed RS (X : Ext R G Seed RS) u dts ds no g b g',
  (msd_bootstrap X u dts ds no g = Ok (b, g') -> not_fitted b)
  /\ (mstd_bootstrap X u dts ds no g = Ok (b, g') -> not_fitted b)
  /\ forall q, mscd_bootstrap X u dts ds q no g = Ok (b, g') -> not_fitted b.
Proof. exact @C47_fresh_proof. Qed.
Print Assumptions C47_fresh_objects.
(** [history X b h b']: the calls [h] (method, arguments, outcome) take the object from [b] to [b'],
    with arbitrary other uses of the random generator in between. *)
Theorem C47_data_never_changed : forall G Seed RS (X : Ext R G Seed RS) b h b', history X b h b' -> same_statistics b b'.
Proof. exact @C47_history_statistics_proof. Qed.
Print Assumptions C47_data_never_changed.
(** A coefficient is the one computed by the last successful call of its method. *)
Theorem C47_last_success : forall G Seed RS (X : Ext R G Seed RS) b h1 c h2 b', b_displacements b <> [] ->
  history X b (h1 ++ (c, Ok tt) :: h2)%list b' -> Forall (fun co => snd co <> Ok tt \/ ~ same_kind (fst co) c) h2 ->
  exists b1 g b2 g2, history X b h1 b1 /\ run_call X b1 g c = (b2, g2, Ok tt)
    /\ coefficient c b2 <> None /\ coefficient c b' = coefficient c b2.
Proof. exact @C47_history_proof. Qed.
Print Assumptions C47_last_success.
Theorem C47_none_before_success : forall G Seed RS (X : Ext R G Seed RS) b h b' d, b_displacements b <> [] -> not_fitted b ->
  history X b h b' -> Forall (fun co => snd co <> Ok tt \/ ~ same_kind (fst co) d) h -> coefficient d b' = None.
Proof. exact @C47_history_none_proof. Qed.
Print Assumptions C47_none_before_success.
Theorem C47_failed_call : forall G Seed RS (X : Ext R G Seed RS) k b p t vol g e, b_displacements b <> [] ->
  (forall b' g', diffusion X b p g = (b', g', Raise e) -> same_coefficients b b' /\ same_fit b b')
  /\ (forall b' g', jump_diffusion X b p g = (b', g', Raise e) -> same_coefficients b b' /\ same_fit b b')
  /\ (forall b' g', conductivity X k b p t vol g = (b', g', Raise e) -> same_coefficients b b' /\ same_fit b b').
Proof. exact @C47_failed_proof. Qed.
Print Assumptions C47_failed_call.
Example C47_example : exists b, history (demo_ext 1 6) demo_data
    [(CallDiffusion (demo_fit 1 true), Ok tt); (CallDiffusion (demo_fit 3 true), Raise IndexError)] b
  /\ b_D b = Some (diffusion_samples 3 (repeat 6%R 4)) /\ b_start_dt b = Some 3%R /\ b_gradient b = Some (repeat 6%R 4)
  /\ b_dt b = [1;2]%R.
Proof. exact C47_history_example_proof. Qed.
(** flatchain and distribution: available after a fit with an intercept ... *)
Theorem C47_results_available_partial : forall G Seed RS (X : Ext R G Seed RS) a p g a' g', l_fit_intercept p = true ->
  an_diffusion X a p g = (a', g', Ok tt) ->
  exists d gr ic, b_D (an_diff a') = Some d /\ b_gradient (an_diff a') = Some gr /\ b_intercept (an_diff a') = Some ic
    /\ length d = length ic /\ length gr = length ic
    /\ an_flatchain (@b_D R) a' = Ok (combine d ic)
    /\ distribution a' = Ok (map (fun t => map (fun gc => fst gc * t + snd gc)%R (combine gr ic)) (b_dt (an_diff a))).
Proof. exact @C47_after_proof. Qed.
Print Assumptions C47_results_available_partial.
Theorem C47_jump_results_available_partial : forall G Seed RS (X : Ext R G Seed RS) a p g a' g', l_fit_intercept p = true ->
  an_jump_diffusion X a p g = (a', g', Ok tt) ->
  exists d gr ic, b_DJ (an_diff a') = Some d /\ b_gradient (an_diff a') = Some gr /\ b_intercept (an_diff a') = Some ic
    /\ length d = length ic /\ length gr = length ic
    /\ an_flatchain (@b_DJ R) a' = Ok (combine d ic)
    /\ distribution a' = Ok (map (fun t => map (fun gc => fst gc * t + snd gc)%R (combine gr ic)) (b_dt (an_diff a))).
Proof. exact @C47_after_jump_proof. Qed.
Print Assumptions C47_jump_results_available_partial.
Theorem C47_sigma_results_available_partial : forall G Seed RS (X : Ext R G Seed RS) k a p t g a' g', l_fit_intercept p = true ->
  an_conductivity X k a p t g = (a', g', Ok tt) ->
  exists d gr ic, b_sigma (an_diff a') = Some d /\ b_gradient (an_diff a') = Some gr /\ b_intercept (an_diff a') = Some ic
    /\ length d = length ic /\ length gr = length ic
    /\ an_flatchain (@b_sigma R) a' = Ok (combine d ic)
    /\ distribution a' = Ok (map (fun t => map (fun gc => fst gc * t + snd gc)%R (combine gr ic)) (b_dt (an_diff a))).
Proof. exact @C47_after_sigma_proof. Qed.
Print Assumptions C47_sigma_results_available_partial.
(** ... but never after one without. *)
Theorem C47_results_available_refuted : exists (X : Ext R nat nat nat) a p g a' g',
  an_diffusion X a p g = (a', g', Ok tt) /\ an_flatchain (@b_D R) a' = Raise AttributeError /\ distribution a' = Raise AttributeError.
Proof. exact C47_refuted_proof. Qed.
Print Assumptions C47_results_available_refuted.
Theorem C47_no_intercept : forall G Seed RS (X : Ext R G Seed RS) a p g a' g', l_fit_intercept p = false ->
  an_diffusion X a p g = (a', g', Ok tt) ->
  an_flatchain (@b_D R) a' = Raise AttributeError /\ distribution a' = Raise AttributeError /\ b_intercept (an_diff a') = None.
Proof. exact @C47_no_intercept_proof. Qed.
Print Assumptions C47_no_intercept.

(** ** C48 *)

(** After a fit with an intercept. Missing, because false: one fitted point with more than one
    prediction per sample, fits without intercept (next theorems). *)
Theorem C48_posterior_predictive_partial : forall G Seed RS (X : Ext R G Seed RS) b p g b' g' r gr n_post n_pred g2,
  randints_ok X -> mvn_shape X -> matrix_shapes X -> length (b_v b) = length (b_dt b) -> length (b_n_o b) = length (b_dt b) ->
  l_fit_intercept p = true -> diffusion X b p g = (b', g', Ok tt) -> first_at_least (l_start_dt p) (b_dt b) r ->
  b_gradient b' = Some gr -> gr <> [] -> (length (b_dt b) - r <> 1 \/ n_pred <= 1)%nat ->
  let k := match n_post with Some k => k | None => length gr end in
  exists ic cov rows blocks g3, b_intercept b' = Some ic /\ b_covariance b' = Some cov
    /\ posterior_predictive X b' n_post n_pred g2 = Ok (rows, g3)
    /\ length rows = (k * n_pred)%nat /\ Forall (fun row => length row = (length (b_dt b) - r)%nat) rows
    /\ rows = concat blocks /\ length blocks = k
    /\ Forall (drawn_block X gr ic (skipn r (b_dt b)) cov n_pred) blocks.
Proof. exact @C48_fit_proof. Qed.
Print Assumptions C48_posterior_predictive_partial.
Example C48_example : exists b g' rows g'', diffusion (demo_ext 1 1) demo_data (demo_fit 1 true) 0%nat = (b, g', Ok tt)
  /\ posterior_predictive (demo_ext 1 1) b None 2 g' = Ok (rows, g'') /\ length rows = 8%nat
  /\ Forall (fun r => length r = 2%nat) rows.
Proof. exact C48_example_proof. Qed.
Theorem C48_no_intercept_refuted : exists (X : Ext R nat nat nat) b p g b' g', diffusion X b p g = (b', g', Ok tt)
  /\ posterior_predictive X b' None 2 g' = Raise AttributeError.
Proof. exact C48_refuted_proof. Qed.
Print Assumptions C48_no_intercept_refuted.
Theorem C48_one_point_refuted : exists (X : Ext R nat nat nat) b p g b' g', l_fit_intercept p = true
  /\ diffusion X b p g = (b', g', Ok tt) /\ posterior_predictive X b' None 2 g' = Raise ValueError.
Proof. exact C48_one_point_refuted_proof. Qed.
Print Assumptions C48_one_point_refuted.
(** A later call that fails replaces the start_dt the predictions are made with. *)
Theorem C48_after_failed_fit_refuted : exists (X : Ext R nat nat nat) b h b' gr ic cov, history X b h b'
  /\ b_gradient b' = Some gr /\ b_intercept b' = Some ic /\ b_covariance b' = Some cov
  /\ posterior_predictive X b' None 1 0%nat = Raise IndexError.
Proof. exact C48_after_failure_refuted_proof. Qed.
Print Assumptions C48_after_failed_fit_refuted.
