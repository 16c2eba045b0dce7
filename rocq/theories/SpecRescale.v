(** * SpecRescale: a fit and its samples in other units, independent of the model (C130) *)
From Verif Require Import Base Spec SpecFit SpecGls SpecSym ModelDiffusion.
From Coq Require Import Reals.
Open Scope R_scope.

(** The parameters of a line when squared lengths are multiplied by [s] and times by [t]: the slope is multiplied by
    [s / t], the intercept by [s]. *)
Definition in_units (s t : R) (th : list R) : list R :=
  match th with [] => [] | [g] => [s / t * g] | g :: c :: rest => s / t * g :: s * c :: rest end.
(** The two objects hold the same data in the two systems of units. *)
Definition same_data (s t : R) (b b' : Boot R) : Prop :=
  b_dt b' = map (Rmult t) (b_dt b) /\ b_n b' = map (Rmult s) (b_n b) /\ length (b_dt b) = length (b_n b).
(** The same options, the start of the fit given in the new unit of time. *)
Definition same_options {RS} (t : R) (p p' : GLSParams R RS) : Prop :=
  p' = mkGLSParams (t * l_start_dt p) (l_cond_max p) (l_model p) (l_fit_intercept p) (l_n_samples p) (l_n_walkers p)
         (l_n_burn p) (l_thin p) (l_random_state p).
(** Where the search for the best line starts. [least] is the positive number that replaces a falling slope. *)
Definition starting_point (least : R) (fit_intercept : bool) (slope : R) : list R :=
  let sl := if Rlt_dec slope 0 then least else slope in if fit_intercept then [sl; least] else [sl].
(** From [x0] in the first system of units and [x0'] in the second the minimiser ends at the same line, whatever the
    function, provided the two functions are the same up to a constant. *)
Definition finds_converted {G Seed RS} (X : Ext R G Seed RS) (s t : R) (x0 x0' : list R) : Prop := forall f f' (k : R),
  (forall th, f' (in_units s t th) = match f th with Ok (Some v) => Ok (Some (v + k)) | r => r end) ->
  x_minimize X f' x0' = outcome (in_units s t) (x_minimize X f x0).
(** The proposals of emcee do not depend on the units (its stretch move is invariant under affine maps), nor does its
    check of the start positions. *)
Definition moves_convert {G Seed RS} (X : Ext R G Seed RS) (s t : R) : Prop :=
  (forall g pos, x_propose X g (map (in_units s t) pos)
     = (map (option_map (fun m => (in_units s t (fst (fst m)), snd (fst m), snd m))) (fst (x_propose X g pos)), snd (x_propose X g pos)))
  /\ forall pos, x_independent X (map (in_units s t) pos) = x_independent X pos.
(** The linear algebra of the two fits: [cov] and its inverse [inv] in the first, both converted in the second. *)
Definition algebra_converts {G Seed RS} (X : Ext R G Seed RS) (s : R) (cov inv : list (list R)) : Prop :=
  x_pinvh X cov = Ok inv /\ x_pinvh X (weighted (s * s) cov) = Ok (weighted (/ (s * s)) inv)
  /\ (exists ld, x_logdet X cov = Ok ld) /\ exists ld', x_logdet X (weighted (s * s) cov) = Ok ld'.
(** The variances and the numbers of observations of the two objects. *)
Definition same_variances (s : R) (b b' : Boot R) : Prop := b_v b' = map (Rmult (s * s)) (b_v b) /\ b_n_o b' = b_n_o b.
(** Eigenvalues and the nearest covariance matrix of a multiple of a matrix are multiples of those of the matrix; the fitted
    factor of the variance model converts. *)
Definition reconditioning_converts {G Seed RS} (X : Ext R G Seed RS) (k : R) (raw : list (list R)) : Prop :=
  (exists l V, x_eig X raw = Ok (l, V) /\ x_eig X (weighted k raw) = Ok (map (Rmult k) l, V))
  /\ forall m, x_cov_nearest X (weighted k m) = outcome (weighted k) (x_cov_nearest X m).
Definition model_converts {G Seed RS} (X : Ext R G Seed RS) (s t : R) (b b' : Boot R) (r : nat) : Prop :=
  x_curve_fit X (skipn r (b_dt b')) (skipn r (b_v b')) (skipn r (b_n_o b'))
    = outcome (Rmult (s * s / (t * t))) (x_curve_fit X (skipn r (b_dt b)) (skipn r (b_v b)) (skipn r (b_n_o b))).
(** The two objects follow the same number of atoms. *)
Definition same_atoms (b b' : Boot R) : Prop := forall d, py_index (b_displacements b) 0 = Ok d ->
  exists d', py_index (b_displacements b') 0 = Ok d' /\ length (a_rows d') = length (a_rows d).
(** What a fit leaves in the two objects. *)
Definition same_fit (s t : R) (b b' : Boot R) : Prop :=
  b_flatchain b' = option_map (map (in_units s t)) (b_flatchain b) /\ b_gradient b' = option_map (map (Rmult (s / t))) (b_gradient b)
  /\ b_intercept b' = option_map (map (Rmult s)) (b_intercept b) /\ b_covariance b' = option_map (weighted (s * s)) (b_covariance b)
  /\ b_dt b' = map (Rmult t) (b_dt b) /\ b_start_dt b' = option_map (Rmult t) (b_start_dt b).
(** Samples of a multivariate normal distribution are multiplied by [s] when its mean and the square root of its covariance
    matrix are. *)
Definition draws_convert {G Seed RS} (X : Ext R G Seed RS) (s : R) : Prop := forall g mu cov n,
  x_mvn X g (map (Rmult s) mu) (weighted (s * s) cov) n = (map (map (Rmult s)) (fst (x_mvn X g mu cov n)), snd (x_mvn X g mu cov n)).
