(** * PropertiesPredict: C110, posterior predictions on average over the random numbers *)
From Verif Require Import Base Spec SpecFit SpecMarkov SpecRun SpecPredict ModelParser ModelDiffusion ProofsFit2 ProofsPredict.
From Coq Require Import Reals.
Open Scope nat_scope.

(** ** C110
    [gs] are the possible states of the generator with the probabilities [wt]; [gr], [ic] the posterior
    samples, [dts] the fitted times and [cov] the stored covariance matrix; [k] samples are picked and
    [n] rows are predicted for each. *)
(** Every prediction is the average posterior line on average. Its covariance matrix is the sum of the
    one of the data and the one of the lines; rows of one block share their line, other rows are not
    correlated. *)
Theorem C110_predictions : forall G Seed RS (X : Ext R G Seed RS) (gs : list G) (wt : G -> R) b gr ic cov start r n_post n,
  randints_ok X -> mvn_shape X ->
  b_gradient b = Some gr -> b_intercept b = Some ic -> b_covariance b = Some cov -> b_start_dt b = Some start ->
  first_at_least start (b_dt b) r -> length cov = length (b_dt b) - r -> length gr = length ic -> 0 < length gr -> (length (b_dt b) - r <> 1 \/ n <= 1) ->
  let k := match n_post with Some k => k | None => length gr end in let dts := skipn r (b_dt b) in
  fair_predictions gs wt X gr ic dts cov k n ->
  exists rows, (forall g, In g gs -> exists g', posterior_predictive X b n_post n g = Ok (rows g, g') /\ length (rows g) = k * n /\ Forall (fun row => length row = length dts) (rows g))
    /\ (forall j p i, j < k -> p < n -> i < length dts -> mean_over gs wt (fun g => matrix_entry (rows g) (j * n + p) i) = mean_line gr ic (vec_entry dts i))
    /\ (forall j p i j' p' i', j < k -> p < n -> i < length dts -> j' < k -> p' < n -> i' < length dts ->
          mean_over gs wt (fun g => (matrix_entry (rows g) (j * n + p) i - mean_line gr ic (vec_entry dts i)) * (matrix_entry (rows g) (j' * n + p') i' - mean_line gr ic (vec_entry dts i')))%R
          = ((if Nat.eqb j j' then lines_covariance gr ic (vec_entry dts i) (vec_entry dts i') else 0) + (if (Nat.eqb j j' && Nat.eqb p p')%bool then matrix_entry cov i i' else 0))%R).
Proof. exact @C110_proof. Qed.
Print Assumptions C110_predictions.
(** After a successful fit with an intercept. *)
Theorem C110_predictions_after_fit : forall G Seed RS (X : Ext R G Seed RS) (gs : list G) (wt : G -> R) b p g0 b' g1 r gr n_post n,
  randints_ok X -> mvn_shape X -> matrix_shapes X ->
  length (b_v b) = length (b_dt b) -> length (b_n_o b) = length (b_dt b) -> l_fit_intercept p = true -> diffusion X b p g0 = (b', g1, Ok tt) ->
  first_at_least (l_start_dt p) (b_dt b) r -> b_gradient b' = Some gr -> gr <> [] -> (length (b_dt b) - r <> 1 \/ n <= 1) ->
  let k := match n_post with Some k => k | None => length gr end in let dts := skipn r (b_dt b) in
  exists ic cov, b_intercept b' = Some ic /\ b_covariance b' = Some cov /\ (fair_predictions gs wt X gr ic dts cov k n ->
   exists rows, (forall g, In g gs -> exists g', posterior_predictive X b' n_post n g = Ok (rows g, g') /\ length (rows g) = k * n /\ Forall (fun row => length row = length dts) (rows g))
    /\ (forall j p i, j < k -> p < n -> i < length dts -> mean_over gs wt (fun g => matrix_entry (rows g) (j * n + p) i) = mean_line gr ic (vec_entry dts i))
    /\ (forall j p i j' p' i', j < k -> p < n -> i < length dts -> j' < k -> p' < n -> i' < length dts ->
          mean_over gs wt (fun g => (matrix_entry (rows g) (j * n + p) i - mean_line gr ic (vec_entry dts i)) * (matrix_entry (rows g) (j' * n + p') i' - mean_line gr ic (vec_entry dts i')))%R
          = ((if Nat.eqb j j' then lines_covariance gr ic (vec_entry dts i) (vec_entry dts i') else 0) + (if (Nat.eqb j j' && Nat.eqb p p')%bool then matrix_entry cov i i' else 0))%R)).
Proof. exact @C110_fit_proof. Qed.
Print Assumptions C110_predictions_after_fit.
(** Two posterior lines, t and 3t+2, unit variances: at time 1 the predictions have mean 3 and variance 4+1. *)
Example C110_example : randints_ok signs_ext /\ mvn_shape signs_ext /\ b_gradient fitted_data = Some [1;3]%R /\ b_intercept fitted_data = Some [0;2]%R
  /\ b_covariance fitted_data = Some [[1;0];[0;1]]%R /\ b_start_dt fitted_data = Some 1%R /\ first_at_least 1 (b_dt fitted_data) 0 /\ skipn 0 (b_dt fitted_data) = [1;2]%R
  /\ fair_predictions sign_states one_sixteenth signs_ext [1;3]%R [0;2]%R [1;2]%R [[1;0];[0;1]]%R 2 2
  /\ mean_line [1;3]%R [0;2]%R 1 = 3%R /\ lines_covariance [1;3]%R [0;2]%R 1 1 = 4%R /\ lines_covariance [1;3]%R [0;2]%R 1 2 = 6%R.
Proof. exact C110_example_proof. Qed.
