(** * PropertiesGls: C67, the line fitted to the data and the distribution its samples follow *)
From Verif Require Import Base Spec SpecFit SpecGls ModelParser ModelDiffusion ProofsCov ProofsFit2 ProofsGls.
From Coq Require Import Reals.
Open Scope nat_scope.

(** ** C67
    [w] is the inverse covariance matrix. There is exactly one generalised-least-squares line. *)
Theorem C67_one_best_line : forall (dt n : list R) w,
  length dt = length n -> square w (length n) -> symmetric w -> positive_definite w -> two_times dt ->
  exists g c, gls_solution w dt n g c /\ forall g' c', gls_solution w dt n g' c' -> g' = g /\ c' = c.
Proof. exact C67_unique_proof. Qed.
Print Assumptions C67_one_best_line.
Theorem C67_one_best_line_no_intercept : forall (dt n : list R) w,
  length dt = length n -> square w (length n) -> symmetric w -> positive_definite w -> some_time dt ->
  exists g, gls_solution_no_intercept w dt n g /\ forall g', gls_solution_no_intercept w dt n g' -> g' = g.
Proof. exact C67_unique1_proof. Qed.
Print Assumptions C67_one_best_line_no_intercept.
(** Data exactly on a line: that line, whatever the weights. *)
Theorem C67_linear_data : forall (dt n : list R) w g c, on_line dt n g c -> gls_solution w dt n g c.
Proof. exact C67_linear_proof. Qed.
Print Assumptions C67_linear_data.
Theorem C67_linear_data_no_intercept : forall (dt n : list R) w g, on_line dt n g 0 -> gls_solution_no_intercept w dt n g.
Proof. exact C67_linear1_proof. Qed.
Print Assumptions C67_linear_data_no_intercept.
(** The likelihood is that of a normal distribution around the best line whose inverse covariance is
    the information matrix, cut off at negative slopes ([None] is minus infinity). *)
Theorem C67_posterior_is_truncated_normal : forall (dt n : list R) (ld : R) w g c,
  length dt = length n -> square w (length n) -> symmetric w -> gls_solution w dt n g c ->
  exists k, forall g' c', log_likelihood dt n ld w [g'; c']
    = Ok (if Rlt_dec g' 0 then None else Some (k - 1/2 * information w dt (g' - g) (c' - c))%R).
Proof. exact C67_gaussian_proof. Qed.
Print Assumptions C67_posterior_is_truncated_normal.
Theorem C67_posterior_no_intercept : forall (dt n : list R) (ld : R) w g,
  length dt = length n -> square w (length n) -> symmetric w -> gls_solution_no_intercept w dt n g ->
  exists k, forall g', log_likelihood dt n ld w [g']
    = Ok (if Rlt_dec g' 0 then None else Some (k - 1/2 * information w dt (g' - g) 0)%R).
Proof. exact C67_gaussian1_proof. Qed.
Print Assumptions C67_posterior_no_intercept.
Theorem C67_information_positive : forall w dt a b,
  square w (length dt) -> symmetric w -> positive_definite w -> two_times dt -> (a <> 0 \/ b <> 0)%R ->
  (0 < information w dt a b)%R.
Proof. exact information_positive. Qed.
Print Assumptions C67_information_positive.
(** Falling data: the most likely admissible line is unique and has slope zero. *)
Theorem C67_falling_data : forall (dt n : list R) (ld : R) w g c,
  length dt = length n -> square w (length n) -> symmetric w -> positive_definite w -> two_times dt ->
  gls_solution w dt n g c -> (g < 0)%R ->
  exists c0 l0, log_likelihood dt n ld w [0%R; c0] = Ok (Some l0)
    /\ forall g' c' l', log_likelihood dt n ld w [g'; c'] = Ok (Some l') ->
         (l' <= l0)%R /\ (l' = l0 -> g' = 0%R /\ c' = c0).
Proof. exact C67_negative_proof. Qed.
Print Assumptions C67_falling_data.
(** The best line does not depend on the overall scale of the covariance, and follows a line added
    to the data. *)
Theorem C67_scale_of_weights : forall (dt n : list R) w k g c,
  length dt = length n -> square w (length n) -> k <> 0%R ->
  (gls_solution (weighted k w) dt n g c <-> gls_solution w dt n g c).
Proof. exact C67_weights_proof. Qed.
Print Assumptions C67_scale_of_weights.
Theorem C67_added_line : forall (dt n : list R) w a d g c, length dt = length n ->
  (gls_solution w dt (plus_line a d dt n) (g + a) (c + d) <-> gls_solution w dt n g c).
Proof. exact C67_add_line_proof. Qed.
Print Assumptions C67_added_line.
(** Data on a line, and falling data with a positive definite weight. *)
Example C67_example : on_line [1;2;3]%R [5;7;9]%R 2 3 /\ two_times [1;2;3]%R
  /\ positive_definite id2 /\ gls_solution id2 [1;2]%R [4;3]%R (-1) 5 /\ two_times [1;2]%R.
Proof. exact C67_example_proof. Qed.
