(** * PropertiesRescale: C130, the posterior samples convert with the units *)
From Verif Require Import Base Spec SpecFit SpecGls SpecSym SpecRescale ModelDiffusion ProofsCov ProofsFit2 ProofsRescale.
From Coq Require Import Reals.
Open Scope R_scope.

(** ** C130 *)
(** The chain of the fit in the other units is the chain of the fit, every sample converted, and the random generator is left in the same state. *)
Theorem C130_samples : forall {G Seed RS} (X : Ext R G Seed RS) (b b' : Boot R) (p p' : GLSParams R RS) r cov inv sl sl' s t g,
    0 < s -> 0 < t -> same_data s t b b' -> same_options t p p' ->
    square inv (length (b_n b) - r) -> symmetric inv -> algebra_converts X s cov inv ->
    x_linregress X (skipn r (b_dt b)) (skipn r (b_n b)) = Ok sl -> x_linregress X (skipn r (b_dt b')) (skipn r (b_n b')) = Ok sl' ->
    finds_converted X s t (starting_point tiny (l_fit_intercept p) sl) (starting_point tiny (l_fit_intercept p) sl') ->
    moves_convert X s t ->
    sample_gls X b' p' r (weighted (s * s) cov) g = (fst (sample_gls X b p r cov g), outcome (map (in_units s t)) (snd (sample_gls X b p r cov g))).
Proof. exact @C130_samples_proof. Qed.
Print Assumptions C130_samples.
(** The covariance matrix converts, with and without the variance model. *)
Theorem C130_covariance : forall {G Seed RS} (X : Ext R G Seed RS) (b b' : Boot R) (p p' : GLSParams R RS) r raw cov s t,
    0 < s -> 0 < t -> same_data s t b b' -> same_variances s b b' -> same_options t p p' ->
    generate_covariance_matrix X (set_settings b p) p r = (Some raw, Ok cov) ->
    reconditioning_converts X (s * s) raw -> (l_model p = true -> model_converts X s t b b' r) ->
    generate_covariance_matrix X (set_settings b' p') p' r = (Some (weighted (s * s) raw), Ok (weighted (s * s) cov)).
Proof. exact @C130_covariance_proof. Qed.
Print Assumptions C130_covariance.
(** The same for the attributes of the object after `bootstrap_GLS`: samples, gradient, intercept and covariance matrix. *)
Theorem C130_fit : forall {G Seed RS} (X : Ext R G Seed RS) (b b' b1 : Boot R) (p p' : GLSParams R RS) r raw cov inv sl sl' s t g g1,
    0 < s -> 0 < t -> same_data s t b b' -> same_options t p p' -> first_at_least (l_start_dt p) (b_dt b) r ->
    generate_covariance_matrix X (set_settings b p) p r = (Some raw, Ok cov) ->
    same_variances s b b' -> reconditioning_converts X (s * s) raw -> (l_model p = true -> model_converts X s t b b' r) ->
    square inv (length (b_n b) - r) -> symmetric inv -> algebra_converts X s cov inv ->
    x_linregress X (skipn r (b_dt b)) (skipn r (b_n b)) = Ok sl -> x_linregress X (skipn r (b_dt b')) (skipn r (b_n b')) = Ok sl' ->
    finds_converted X s t (starting_point tiny (l_fit_intercept p) sl) (starting_point tiny (l_fit_intercept p) sl') ->
    moves_convert X s t -> bootstrap_GLS X b p g = (b1, g1, Ok tt) ->
    exists b1', bootstrap_GLS X b' p' g = (b1', g1, Ok tt) /\ same_fit s t b1 b1'.
Proof. exact @C130_fit_proof. Qed.
Print Assumptions C130_fit.
(** Every sample of the diffusion coefficient is multiplied by the factor of the units of the coefficient. *)
Theorem C130_diffusion : forall {G Seed RS} (X : Ext R G Seed RS) (b b' b1 : Boot R) (p p' : GLSParams R RS) r raw cov inv sl sl' s t g g1,
    0 < s -> 0 < t -> same_data s t b b' -> b_dims b' = b_dims b -> same_options t p p' -> first_at_least (l_start_dt p) (b_dt b) r ->
    generate_covariance_matrix X (set_settings b p) p r = (Some raw, Ok cov) ->
    same_variances s b b' -> reconditioning_converts X (s * s) raw -> (l_model p = true -> model_converts X s t b b' r) ->
    square inv (length (b_n b) - r) -> symmetric inv -> algebra_converts X s cov inv ->
    x_linregress X (skipn r (b_dt b)) (skipn r (b_n b)) = Ok sl -> x_linregress X (skipn r (b_dt b')) (skipn r (b_n b')) = Ok sl' ->
    finds_converted X s t (starting_point tiny (l_fit_intercept p) sl) (starting_point tiny (l_fit_intercept p) sl') ->
    moves_convert X s t -> diffusion X b p g = (b1, g1, Ok tt) ->
    exists b1', diffusion X b' p' g = (b1', g1, Ok tt) /\ b_D b1' = option_map (map (Rmult (s / t))) (b_D b1).
Proof. exact @C130_diffusion_proof. Qed.
Print Assumptions C130_diffusion.
(** So is every sample of the jump-diffusion coefficient. *)
Theorem C130_jump : forall {G Seed RS} (X : Ext R G Seed RS) (b b' b1 : Boot R) (p p' : GLSParams R RS) r raw cov inv sl sl' s t g g1,
    0 < s -> 0 < t -> same_data s t b b' -> b_dims b' = b_dims b -> same_atoms b b' -> same_options t p p' -> first_at_least (l_start_dt p) (b_dt b) r ->
    generate_covariance_matrix X (set_settings b p) p r = (Some raw, Ok cov) ->
    same_variances s b b' -> reconditioning_converts X (s * s) raw -> (l_model p = true -> model_converts X s t b b' r) ->
    square inv (length (b_n b) - r) -> symmetric inv -> algebra_converts X s cov inv ->
    x_linregress X (skipn r (b_dt b)) (skipn r (b_n b)) = Ok sl -> x_linregress X (skipn r (b_dt b')) (skipn r (b_n b')) = Ok sl' ->
    finds_converted X s t (starting_point tiny (l_fit_intercept p) sl) (starting_point tiny (l_fit_intercept p) sl') ->
    moves_convert X s t -> jump_diffusion X b p g = (b1, g1, Ok tt) ->
    exists b1', jump_diffusion X b' p' g = (b1', g1, Ok tt) /\ b_DJ b1' = option_map (map (Rmult (s / t))) (b_DJ b1).
Proof. exact @C130_jump_proof. Qed.
Print Assumptions C130_jump.
(** Every sample of the conductivity is multiplied by [s / (t v)] when the volume is multiplied by [v] (for lengths multiplied by a: s = a^2, v = a^3). *)
Theorem C130_conductivity : forall {G Seed RS} (X : Ext R G Seed RS) (b b' b1 : Boot R) (p p' : GLSParams R RS) r raw cov inv sl sl' s t g g1 k T vol v,
    0 < s -> 0 < t -> 0 < v -> same_data s t b b' -> b_dims b' = b_dims b -> same_options t p p' -> first_at_least (l_start_dt p) (b_dt b) r ->
    generate_covariance_matrix X (set_settings b p) p r = (Some raw, Ok cov) ->
    same_variances s b b' -> reconditioning_converts X (s * s) raw -> (l_model p = true -> model_converts X s t b b' r) ->
    square inv (length (b_n b) - r) -> symmetric inv -> algebra_converts X s cov inv ->
    x_linregress X (skipn r (b_dt b)) (skipn r (b_n b)) = Ok sl -> x_linregress X (skipn r (b_dt b')) (skipn r (b_n b')) = Ok sl' ->
    finds_converted X s t (starting_point tiny (l_fit_intercept p) sl) (starting_point tiny (l_fit_intercept p) sl') ->
    moves_convert X s t -> conductivity X k b p T vol g = (b1, g1, Ok tt) ->
    exists b1', conductivity X k b' p' T (v * vol) g = (b1', g1, Ok tt) /\ b_sigma b1' = option_map (map (Rmult (s / (t * v)))) (b_sigma b1).
Proof. exact @C130_conductivity_proof. Qed.
Print Assumptions C130_conductivity.
(** After the two fits the posterior predictive samples of the second are those of the first times [s]; if one call fails so does the other. *)
Theorem C130_predictions : forall {G Seed RS} (X : Ext R G Seed RS) (b b' : Boot R) s t np n g,
    0 < t -> same_fit s t b b' -> draws_convert X s ->
    posterior_predictive X b' np n g = outcome (fun r => (map (map (Rmult s)) (fst r), snd r)) (posterior_predictive X b np n g).
Proof. exact @C130_predictions_proof. Qed.
Print Assumptions C130_predictions.
(** One data point, 4 at time 2, in units 100 and 1000 times smaller: all hypotheses hold, and the walkers move from slope 2 to slope 4. *)
Example C130_example : same_data 100 1000 demo_data other_units /\ same_options 1000 (demo_fit 2 false) other_fit
  /\ first_at_least 2 (b_dt demo_data) 1
  /\ generate_covariance_matrix point_ext (set_settings demo_data (demo_fit 2 false)) (demo_fit 2 false) 1 = (Some [[1]], Ok [[1]])
  /\ same_variances 100 demo_data other_units /\ reconditioning_converts point_ext (100 * 100) [[1]]
  /\ square [[/ 1]] (length (b_n demo_data) - 1) /\ symmetric [[/ 1]] /\ algebra_converts point_ext 100 [[1]] [[/ 1]]
  /\ x_linregress point_ext (skipn 1 (b_dt demo_data)) (skipn 1 (b_n demo_data)) = Ok 2
  /\ x_linregress point_ext (skipn 1 (b_dt other_units)) (skipn 1 (b_n other_units)) = Ok (100 / 1000 * 2)
  /\ finds_converted point_ext 100 1000 (starting_point tiny false 2) (starting_point tiny false (100 / 1000 * 2))
  /\ moves_convert point_ext 100 1000 /\ draws_convert point_ext 100 /\ model_converts point_ext 100 1000 demo_data other_units 1 /\ same_atoms demo_data other_units
  /\ exists b1 g1, bootstrap_GLS point_ext demo_data (demo_fit 2 false) 0%nat = (b1, g1, Ok tt) /\ b_gradient b1 = Some [4;4;4;4].
Proof. exact C130_example_proof. Qed.
