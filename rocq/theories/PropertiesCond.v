(** * PropertiesCond: C109, what reconditioning the covariance matrix does to a fit *)
From Verif Require Import Base Spec SpecFit SpecGls SpecMarkov SpecCond ModelParser ModelDiffusion ProofsCov ProofsCond.
From Coq Require Import Reals.
Open Scope nat_scope.

(** ** C109
    [m] is the covariance matrix, [l] and [v] its eigenvalues and eigenvectors in the order NumPy
    returns them, [c] (or [cond]) is cond_max. *)
(** No combination of the values gets a smaller variance. *)
Theorem C109_never_narrower : forall G Seed RS (X : Ext R G Seed RS) m v l (c : R) e0,
  x_eig X m = Ok (l, v) -> eigendecomposition m v l -> nth_error l 0 = Some e0 ->
  exists r, minimum_eigenvalue_method X m c = Ok r /\ square r (length m) /\ symmetric r /\ at_least_as_wide r m.
Proof. exact @C109_wider_proof. Qed.
Print Assumptions C109_never_narrower.
(** None gets more than the first eigenvalue over cond_max in addition. *)
Theorem C109_little_wider : forall G Seed RS (X : Ext R G Seed RS) m v l (c : R) e0,
  x_eig X m = Ok (l, v) -> eigendecomposition m v l -> nth_error l 0 = Some e0 ->
  (0 < c)%R -> (forall y, In y l -> (0 <= y)%R) ->
  exists r, minimum_eigenvalue_method X m c = Ok r /\ forall x, length x = length m -> (quadratic r x <= quadratic m x + e0 / c * norm2 x)%R.
Proof. exact @C109_little_proof. Qed.
Print Assumptions C109_little_wider.
(** A matrix without smaller eigenvalues is not changed. *)
Theorem C109_untouched : forall G Seed RS (X : Ext R G Seed RS) m v l (c : R) e0,
  x_eig X m = Ok (l, v) -> eigendecomposition m v l -> nth_error l 0 = Some e0 ->
  (forall y, In y l -> (e0 / c <= y)%R) -> minimum_eigenvalue_method X m c = Ok m.
Proof. exact @C109_untouched_proof. Qed.
Print Assumptions C109_untouched.
(** Wider covariance matrices give smaller weights. *)
Theorem C109_weights : forall n m r w w',
  square m n -> symmetric m -> positive_semidefinite m -> square r n -> symmetric r -> at_least_as_wide r m ->
  square w n -> symmetric w -> inverse_of w m -> square w' n -> symmetric w' -> inverse_of w' r -> at_least_as_wide w w'.
Proof. exact C109_weights_proof. Qed.
Print Assumptions C109_weights.
(** So the uncertainty of the slope, and of the line at any time, is at least the one without
    reconditioning; the slopes that are best before and after are [g] and [g']. *)
Theorem C109_uncertainty_not_smaller : forall G Seed RS (X : Ext R G Seed RS) m v l (cond : R) e0 r w w' dt y (ld ld' : R) g c g' c',
  x_eig X m = Ok (l, v) -> eigendecomposition m v l -> nth_error l 0 = Some e0 -> symmetric m -> positive_definite m ->
  minimum_eigenvalue_method X m cond = Ok r -> length dt = length m -> length dt = length y -> two_times dt ->
  square w (length dt) -> symmetric w -> inverse_of w m -> square w' (length dt) -> symmetric w' -> inverse_of w' r ->
  (0 < g)%R -> most_likely (log_likelihood dt y ld w) [g; c] -> (0 < g')%R -> most_likely (log_likelihood dt y ld' w') [g'; c'] ->
  exists v v', normal_around (log_likelihood dt y ld w) g c v /\ normal_around (log_likelihood dt y ld' w') g' c' v'
    /\ (slope_variance v <= slope_variance v')%R /\ forall t, (line_variance v t <= line_variance v' t)%R.
Proof. exact @C109_not_smaller_proof. Qed.
Print Assumptions C109_uncertainty_not_smaller.
Theorem C109_uncertainty_not_smaller_origin : forall G Seed RS (X : Ext R G Seed RS) m v l (cond : R) e0 r w w' dt y (ld ld' : R) g g',
  x_eig X m = Ok (l, v) -> eigendecomposition m v l -> nth_error l 0 = Some e0 -> symmetric m -> positive_definite m ->
  minimum_eigenvalue_method X m cond = Ok r -> length dt = length m -> length dt = length y -> some_time dt ->
  square w (length dt) -> symmetric w -> inverse_of w m -> square w' (length dt) -> symmetric w' -> inverse_of w' r ->
  (0 < g)%R -> most_likely (log_likelihood dt y ld w) [g] -> (0 < g')%R -> most_likely (log_likelihood dt y ld' w') [g'] ->
  exists v v', normal_around_origin (log_likelihood dt y ld w) g v /\ normal_around_origin (log_likelihood dt y ld' w') g' v' /\ (v <= v')%R.
Proof. exact @C109_not_smaller_origin_proof. Qed.
Print Assumptions C109_uncertainty_not_smaller_origin.
(** Whatever the reason for smaller weights. *)
Theorem C109_smaller_weights_wider_fit : forall dt y (ld ld' : R) w w' g c g' c',
  length dt = length y -> two_times dt ->
  square w (length dt) -> symmetric w -> positive_definite w -> square w' (length dt) -> symmetric w' -> positive_definite w' -> at_least_as_wide w w' ->
  (0 < g)%R -> most_likely (log_likelihood dt y ld w) [g; c] -> (0 < g')%R -> most_likely (log_likelihood dt y ld' w') [g'; c'] ->
  exists v v', normal_around (log_likelihood dt y ld w) g c v /\ normal_around (log_likelihood dt y ld' w') g' c' v'
    /\ (slope_variance v <= slope_variance v')%R /\ forall t, (line_variance v t <= line_variance v' t)%R.
Proof. exact C109_fit_proof. Qed.
Print Assumptions C109_smaller_weights_wider_fit.
Theorem C109_smaller_weights_wider_fit_origin : forall dt y (ld ld' : R) w w' g g',
  length dt = length y -> some_time dt ->
  square w (length dt) -> symmetric w -> positive_definite w -> square w' (length dt) -> symmetric w' -> positive_definite w' -> at_least_as_wide w w' ->
  (0 < g)%R -> most_likely (log_likelihood dt y ld w) [g] -> (0 < g')%R -> most_likely (log_likelihood dt y ld' w') [g'] ->
  exists v v', normal_around_origin (log_likelihood dt y ld w) g v /\ normal_around_origin (log_likelihood dt y ld' w') g' v' /\ (v <= v')%R.
Proof. exact C109_fit_origin_proof. Qed.
Print Assumptions C109_smaller_weights_wider_fit_origin.
(** The variances 1 and 4 with cond_max 2: the variance of the slope rises from 5 to 6. *)
Example C109_example : eigendecomposition diag14 [[0;1];[1;0]]%R [4;1]%R
  /\ minimum_eigenvalue_method (eig_ext (fun _ => Ok ([4;1]%R, [[0;1];[1;0]]%R))) diag14 2%R = Ok cov24
  /\ inverse_of weights14 diag14 /\ inverse_of weights24 cov24 /\ positive_definite weights14 /\ positive_definite weights24
  /\ at_least_as_wide weights14 weights24 /\ two_times [1;2]%R
  /\ most_likely (log_likelihood [1;2]%R [3;5]%R 0%R weights14) [2;1]%R /\ most_likely (log_likelihood [1;2]%R [3;5]%R 0%R weights24) [2;1]%R
  /\ normal_around (log_likelihood [1;2]%R [3;5]%R 0%R weights14) 2 1 [[5;-6];[-6;8]]%R
  /\ normal_around (log_likelihood [1;2]%R [3;5]%R 0%R weights24) 2 1 [[6;-8];[-8;12]]%R.
Proof. exact C109_example_proof. Qed.
