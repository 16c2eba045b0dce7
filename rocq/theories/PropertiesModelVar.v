(** * PropertiesModelVar: C108

    [shape_of n_o dt] is dt^2/n_o for every interval, [fits_factor] says that curve_fit minimises the sum of squared differences over
    factors that are not negative, [usable] that times and counts are positive and the variances neither negative nor all zero. *)
From Verif Require Import Base Spec SpecFit SpecGls SpecModelVar ModelDiffusion ProofsModelVar.
From Coq Require Import Reals.
Open Scope R_scope.

(** The factor asked for exists and is unique. *)
Theorem C108_factor : forall w v a,
  length w = length v -> (exists x, In x w /\ x <> 0) -> Forall (fun x => 0 <= x) w -> Forall (fun x => 0 <= x) v ->
  (best_factor w v a <-> a = products w v / products w w).
Proof. exact C108_closed_proof. Qed.
Print Assumptions C108_factor.
(** It lies between the smallest and the largest ratio of variance to model. *)
Theorem C108_between_ratios : forall w v a lo hi,
  (exists x, In x w /\ x <> 0) -> 0 <= lo -> Forall2 (fun x y => 0 <= x /\ lo * x <= y <= hi * x) w v ->
  best_factor w v a -> lo <= a <= hi.
Proof. exact C108_between_proof. Qed.
Print Assumptions C108_between_ratios.
(** Variances that follow the model are reproduced. *)
Theorem C108_exact : forall w a0 a,
  (exists x, In x w /\ x <> 0) -> Forall (fun x => 0 <= x) w -> 0 <= a0 -> best_factor w (map (Rmult a0) w) a -> a = a0.
Proof. exact C108_exact_proof. Qed.
Print Assumptions C108_exact.
(** The covariance matrix of a fit with model=True, before reconditioning, in terms of times, counts and variances. *)
Theorem C108_covariance : forall G Seed RS (X : Ext R G Seed RS) (HX : fits_factor (x_curve_fit X)) (b : Boot R) (p : GLSParams R RS) r m res,
  l_model p = true -> length (b_n_o b) = length (b_dt b) -> Forall (fun x => 0 < x) (b_n_o b) ->
  usable (skipn r (b_dt b)) (skipn r (b_v b)) (skipn r (b_n_o b)) -> generate_covariance_matrix X b p r = (Some m, res) ->
  let w := shape_of (skipn r (b_n_o b)) (skipn r (b_dt b)) in
  square m (length (skipn r (b_dt b))) /\ symmetric m
  /\ forall i j, (i <= j < length (skipn r (b_dt b)))%nat -> matrix_entry m i j
       = products w (skipn r (b_v b)) / products w w * (vec_entry (skipn r (b_dt b)) i * vec_entry (skipn r (b_dt b)) i) / vec_entry (skipn r (b_n_o b)) j.
Proof. exact @C108_modelled_proof. Qed.
Print Assumptions C108_covariance.
(** Other variances at the same times with the same counts give a multiple of the same matrix, *)
Theorem C108_shape_fixed : forall G Seed RS (X : Ext R G Seed RS) (HX : fits_factor (x_curve_fit X)) (b b' : Boot R) (p : GLSParams R RS) r m res m' res',
  l_model p = true ->
  length (b_n_o b) = length (b_dt b) -> Forall (fun x => 0 < x) (b_n_o b) -> b_dt b' = b_dt b -> b_n_o b' = b_n_o b ->
  usable (skipn r (b_dt b)) (skipn r (b_v b)) (skipn r (b_n_o b)) -> usable (skipn r (b_dt b)) (skipn r (b_v b')) (skipn r (b_n_o b)) ->
  generate_covariance_matrix X b p r = (Some m, res) -> generate_covariance_matrix X b' p r = (Some m', res') ->
  exists k, 0 < k /\ length m' = length m /\ (forall i j, (i < length m)%nat -> (j < length m)%nat -> matrix_entry m' i j = k * matrix_entry m i j).
Proof. exact @C108_multiple_proof. Qed.
Print Assumptions C108_shape_fixed.
(** so the best line through given data does not depend on the reported variances; only its uncertainty does. *)
Theorem C108_best_line_fixed : forall G Seed RS (X : Ext R G Seed RS) (HX : fits_factor (x_curve_fit X)) (b b' : Boot R) (p : GLSParams R RS) r m res m' res' w y g c,
  l_model p = true ->
  length (b_n_o b) = length (b_dt b) -> Forall (fun x => 0 < x) (b_n_o b) -> b_dt b' = b_dt b -> b_n_o b' = b_n_o b ->
  usable (skipn r (b_dt b)) (skipn r (b_v b)) (skipn r (b_n_o b)) -> usable (skipn r (b_dt b)) (skipn r (b_v b')) (skipn r (b_n_o b)) ->
  generate_covariance_matrix X b p r = (Some m, res) -> generate_covariance_matrix X b' p r = (Some m', res') ->
  square w (length m) -> inverse_of w m -> length y = length m ->
  exists k, 0 < k /\ inverse_of (weighted k w) m'
    /\ (gls_solution (weighted k w) (skipn r (b_dt b)) y g c <-> gls_solution w (skipn r (b_dt b)) y g c).
Proof. exact @C108_line_proof. Qed.
Print Assumptions C108_best_line_fixed.
Example C108_example : forall G Seed RS (X : Ext R G Seed RS),
  fits_factor (x_curve_fit (solving X)) /\ usable [1; 2] [3; 5] [4; 2]
  /\ products (shape_of [4; 2] [1; 2]) [3; 5] / products (shape_of [4; 2] [1; 2]) (shape_of [4; 2] [1; 2]) = 172 / 65
  /\ forall (b : Boot R) (p : GLSParams R RS), b_dt b = [1; 2] -> b_v b = [3; 5] -> b_n_o b = [4; 2] -> l_model p = true ->
       exists m res, generate_covariance_matrix (solving X) b p 0 = (Some m, res).
Proof. exact @C108_example_proof. Qed.
