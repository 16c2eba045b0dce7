(** * PropertiesUnits: C75, the fit in other units *)
From Verif Require Import Base Spec SpecFit SpecGls SpecSym ModelParser ModelDiffusion ProofsCov ProofsFit2 ProofsGls ProofsUnits.
From Coq Require Import Reals.
Open Scope nat_scope.

(** ** C75
    [s] converts squared lengths and [t] converts times. The best line in the new units is the best
    line in the old units, converted. *)
Theorem C75_best_line : forall (dt n : list R) w s t g c,
  length dt = length n -> square w (length n) -> symmetric w -> s <> 0%R -> t <> 0%R ->
  (gls_solution (weighted (/ (s * s)) w) (map (Rmult t) dt) (map (Rmult s) n) (s / t * g) (s * c) <-> gls_solution w dt n g c).
Proof. exact C75_line_proof. Qed.
Print Assumptions C75_best_line.
Theorem C75_best_line_no_intercept : forall (dt n : list R) w s t g,
  length dt = length n -> square w (length n) -> symmetric w -> s <> 0%R -> t <> 0%R ->
  (gls_solution_no_intercept (weighted (/ (s * s)) w) (map (Rmult t) dt) (map (Rmult s) n) (s / t * g)
   <-> gls_solution_no_intercept w dt n g).
Proof. exact C75_line1_proof. Qed.
Print Assumptions C75_best_line_no_intercept.
(** The likelihoods of converted parameters differ by one constant, so the same parameters are
    sampled with the same probabilities. [ld] and [ld'] are the log determinants. *)
Theorem C75_likelihood : forall (dt n : list R) (ld ld' : R) w s t,
  length dt = length n -> square w (length n) -> symmetric w -> (0 < s)%R -> (0 < t)%R ->
  forall g c l, log_likelihood dt n ld w [g; c] = Ok l ->
  log_likelihood (map (Rmult t) dt) (map (Rmult s) n) ld' (weighted (/ (s * s)) w) [s / t * g; s * c]%R
    = Ok (option_map (fun x => x - (ld' - ld) / 2)%R l).
Proof. exact C75_likelihood_proof. Qed.
Print Assumptions C75_likelihood.
Theorem C75_likelihood_no_intercept : forall (dt n : list R) (ld ld' : R) w s t,
  length dt = length n -> square w (length n) -> symmetric w -> (0 < s)%R -> (0 < t)%R ->
  forall g l, log_likelihood dt n ld w [g] = Ok l ->
  log_likelihood (map (Rmult t) dt) (map (Rmult s) n) ld' (weighted (/ (s * s)) w) [s / t * g]%R
    = Ok (option_map (fun x => x - (ld' - ld) / 2)%R l).
Proof. exact C75_likelihood1_proof. Qed.
Print Assumptions C75_likelihood_no_intercept.
(** The covariance matrix is multiplied by [c]^4 when lengths are multiplied by [c]. With
    `model_v=True` the variance model fitted by scipy has to scale too. *)
Theorem C75_covariance : forall {G Seed RS} (X : Ext R G Seed RS) c b b' p r, scaled_statistics c b b' ->
  (l_model p = true -> x_curve_fit X (skipn r (b_dt b')) (skipn r (b_v b')) (skipn r (b_n_o b'))
     = outcome (Rmult (c * c * (c * c))) (x_curve_fit X (skipn r (b_dt b)) (skipn r (b_v b)) (skipn r (b_n_o b)))) ->
  fst (generate_covariance_matrix X b' p r) = option_map (weighted (c * c * (c * c))) (fst (generate_covariance_matrix X b p r)).
Proof. exact @C75_covariance_proof. Qed.
Print Assumptions C75_covariance.
(** It does not depend on the unit of time. *)
Theorem C75_covariance_time : forall {G Seed RS} (X : Ext R G Seed RS) c b p r, l_model p = false ->
  generate_covariance_matrix X (retime_boot c b) p r = generate_covariance_matrix X b p r.
Proof. exact @C75_time_covariance_proof. Qed.
Print Assumptions C75_covariance_time.
(** Reconditioning and inversion keep the factor. *)
Theorem C75_reconditioning : forall {G Seed RS} (X : Ext R G Seed RS) k m l V (c : R), (0 < k)%R ->
  x_eig X m = Ok (l, V) -> x_eig X (weighted k m) = Ok (map (Rmult k) l, V) ->
  minimum_eigenvalue_method X (weighted k m) c = outcome (weighted k) (minimum_eigenvalue_method X m c).
Proof. exact @C75_recondition_proof. Qed.
Print Assumptions C75_reconditioning.
Theorem C75_inverse : forall k w m, square w (length m) -> square m (length m) -> k <> 0%R ->
  (inverse_of (weighted (/ k) w) (weighted k m) <-> inverse_of w m).
Proof. exact C75_inverse_proof. Qed.
Print Assumptions C75_inverse.
(** For the objects themselves: lengths multiplied by [c] (C60), then times multiplied by [c] (C61). *)
Theorem C75_fit_length : forall c b b' r w g i, c <> 0%R -> scaled_statistics c b b' ->
  length (b_dt b) = length (b_n b) -> square w (length (skipn r (b_n b))) -> symmetric w ->
  (gls_solution (weighted (/ (c * c * (c * c))) w) (skipn r (b_dt b')) (skipn r (b_n b')) (c * c * g) (c * c * i)
   <-> gls_solution w (skipn r (b_dt b)) (skipn r (b_n b)) g i).
Proof. exact C75_fit_proof. Qed.
Print Assumptions C75_fit_length.
Theorem C75_fit_time : forall c b r w g i, c <> 0%R ->
  length (b_dt b) = length (b_n b) -> square w (length (skipn r (b_n b))) -> symmetric w ->
  (gls_solution w (skipn r (b_dt (retime_boot c b))) (skipn r (b_n (retime_boot c b))) (g / c) i
   <-> gls_solution w (skipn r (b_dt b)) (skipn r (b_n b)) g i).
Proof. exact C75_time_fit_proof. Qed.
Print Assumptions C75_fit_time.
(** Nanometres to angstrom (100 for squared lengths), picoseconds to femtoseconds (1000). *)
Example C75_example : gls_solution (weighted (/ (100 * 100)) id2) [1000; 2000]%R [400; 300]%R (100 / 1000 * -1) (100 * 5)
  /\ log_likelihood (map (Rmult 1000) [1;2]%R) (map (Rmult 100) [4;3]%R) 7%R (weighted (/ (100 * 100)) id2) [100 / 1000 * 2; 100 * 0]%R
     = Ok (Some (- (1/2) * (3 + 5) - (7 - 3) / 2)%R).
Proof. exact C75_example_proof. Qed.
