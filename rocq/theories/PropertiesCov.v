(** * PropertiesCov: C33-C35 and C54, the covariance matrix and the likelihood

    [matrix_entry], [symmetric], [positive_semidefinite], [condition_at_most] etc. are the textbook
    notions of SpecFit.v. *)
From Verif Require Import Base Spec SpecParser SpecStats SpecFit ModelParser ModelDiffusion ModelHdf ModelAnalyzer
  ProofsStats ProofsCov ProofsFit ProofsFit2 ProofsSub SpecRun.
From Coq Require Import Reals Lra.
Open Scope Z_scope.

(** ** C33 *)
Theorem C33_covariance_entries : forall (v n : list R) m, populate_covariance_matrix v n = Ok m ->
  square m (length v) /\ symmetric m
  /\ (forall i j, (i <= j < length v)%nat -> vec_entry n j <> 0%R ->
        matrix_entry m i j = (vec_entry v i * vec_entry n i / vec_entry n j)%R)
  /\ (forall i, (i < length v)%nat -> vec_entry n i <> 0%R -> matrix_entry m i i = vec_entry v i).
Proof. exact C33_proof. Qed.
Print Assumptions C33_covariance_entries.
(** The only way to fail is to have fewer counts than variances. *)
Theorem C33_failure : forall (v n : list R), (length n < length v)%nat -> populate_covariance_matrix v n = Raise IndexError.
Proof. exact C33_error_proof. Qed.
Print Assumptions C33_failure.
Example C33_example : populate_covariance_matrix [1;3]%R [4;2]%R = Ok [[4/4*1; 4/2*1];[4/2*1;2/2*3]]%R
  /\ [[4/4*1; 4/2*1];[4/2*1;2/2*3]]%R = [[1;2];[2;3]]%R.
Proof. exact C33_example_proof. Qed.

(** ** C34 *)
Theorem C34_semidefinite_iff : forall (v n : list R) m,
  populate_covariance_matrix v n = Ok m -> Forall (fun c => 0 < c)%R n ->
  (positive_semidefinite m <->
   (forall i, (i < length v)%nat -> (0 <= vec_entry v i * (vec_entry n i * vec_entry n i))%R)
   /\ forall i j, (i <= j < length v)%nat ->
        (vec_entry v i * (vec_entry n i * vec_entry n i) <= vec_entry v j * (vec_entry n j * vec_entry n j))%R).
Proof. exact C34_iff_proof. Qed.
Print Assumptions C34_semidefinite_iff.
Example C34_example : (exists m, populate_covariance_matrix [1;3]%R [4;2]%R = Ok m /\ ~ positive_semidefinite m)
  /\ exists m, populate_covariance_matrix [1;5]%R [4;2]%R = Ok m /\ positive_semidefinite m.
Proof. split; [exact C34_example_proof|exact C34_good_proof]. Qed.

(** From parsing to the covariance matrix of a fit with the random-walk model (model=True; curve_fit
    is called with bounds (0, inf)), with every interval analysed. *)
Theorem C34_msd_semidefinite_partial : forall G Seed RS (X : Ext R G Seed RS) N T (x : nat -> nat -> V3 R) idx drift (ts : R) ss o p,
  Forall (valid_site N) idx -> Forall (valid_site N) drift -> sensible T (IZR ss * ts) o -> idx <> [] ->
  o_sampling o = "multi-origin"%string \/ o_sampling o = "single-origin"%string ->
  parser_init geomspace_R (table N T x) idx drift ts ss o = Ok p ->
  forall l : GLSParams R RS, l_model l = true -> (forall x y z a, x_curve_fit X x y z = Ok a -> (0 <= a)%R) ->
  forall u, u_sub_sample_dt u = 1 -> forall g b g' dr raw r,
  msd_bootstrap X u (p_delta_t p) (p_disp_3d p) (p_n_o p) g = Ok (b, g') ->
  generate_covariance_matrix X b l dr = (Some raw, r) -> positive_semidefinite raw.
Proof. exact @C34_msd_proof. Qed.
Print Assumptions C34_msd_semidefinite_partial.
Theorem C34_mstd_semidefinite_partial : forall G Seed RS (X : Ext R G Seed RS) N T (x : nat -> nat -> V3 R) idx drift (ts : R) ss o p,
  Forall (valid_site N) idx -> Forall (valid_site N) drift -> sensible T (IZR ss * ts) o -> idx <> [] ->
  o_sampling o = "multi-origin"%string \/ o_sampling o = "single-origin"%string ->
  parser_init geomspace_R (table N T x) idx drift ts ss o = Ok p ->
  forall l : GLSParams R RS, l_model l = true -> (forall x y z a, x_curve_fit X x y z = Ok a -> (0 <= a)%R) ->
  forall u, u_sub_sample_dt u = 1 -> forall g b g' dr raw r,
  mstd_bootstrap X u (p_delta_t p) (p_disp_3d p) (p_n_o p) g = Ok (b, g') ->
  generate_covariance_matrix X b l dr = (Some raw, r) -> positive_semidefinite raw.
Proof. exact @C34_mstd_proof. Qed.
Print Assumptions C34_mstd_semidefinite_partial.
Theorem C34_mscd_semidefinite_partial : forall G Seed RS (X : Ext R G Seed RS) N T (x : nat -> nat -> V3 R) idx drift (ts : R) ss o p,
  Forall (valid_site N) idx -> Forall (valid_site N) drift -> sensible T (IZR ss * ts) o -> idx <> [] ->
  o_sampling o = "multi-origin"%string \/ o_sampling o = "single-origin"%string ->
  parser_init geomspace_R (table N T x) idx drift ts ss o = Ok p ->
  forall l : GLSParams R RS, l_model l = true -> (forall x y z a, x_curve_fit X x y z = Ok a -> (0 <= a)%R) ->
  forall u, u_sub_sample_dt u = 1 -> forall q g b g' dr raw r,
  (forall l0, q = QArray l0 -> length l0 = length idx) ->
  mscd_bootstrap X u (p_delta_t p) (p_disp_3d p) q (p_n_o p) g = Ok (b, g') ->
  generate_covariance_matrix X b l dr = (Some raw, r) -> positive_semidefinite raw.
Proof. exact @C34_mscd_proof. Qed.
Print Assumptions C34_mscd_semidefinite_partial.

(** Only every sub_sample_dt-th interval is analysed, while the observation counts are those of the first
    intervals. Proved for distinct intervals: always the case with logarithmic spacing (C12) and with
    linear spacing in particular for the default time bounds (C11). Without distinctness the claim is
    false (C34_sub_sample_refuted). *)
Theorem C34_msd_sub_sample_partial : forall G Seed RS (X : Ext R G Seed RS) N T (x : nat -> nat -> V3 R) idx drift (ts : R) ss o p,
  Forall (valid_site N) idx -> Forall (valid_site N) drift -> sensible T (IZR ss * ts) o -> idx <> [] ->
  o_sampling o = "multi-origin"%string \/ o_sampling o = "single-origin"%string ->
  parser_init geomspace_R (table N T x) idx drift ts ss o = Ok p -> NoDup (p_intervals p) ->
  forall l : GLSParams R RS, l_model l = true -> (forall x y z a, x_curve_fit X x y z = Ok a -> (0 <= a)%R) ->
  forall u, 0 < u_sub_sample_dt u -> forall g b g' dr raw r,
  msd_bootstrap X u (p_delta_t p) (p_disp_3d p) (p_n_o p) g = Ok (b, g') ->
  generate_covariance_matrix X b l dr = (Some raw, r) -> positive_semidefinite raw.
Proof. exact @C34_msd_sub_proof. Qed.
Print Assumptions C34_msd_sub_sample_partial.
Theorem C34_mstd_sub_sample_partial : forall G Seed RS (X : Ext R G Seed RS) N T (x : nat -> nat -> V3 R) idx drift (ts : R) ss o p,
  Forall (valid_site N) idx -> Forall (valid_site N) drift -> sensible T (IZR ss * ts) o -> idx <> [] ->
  o_sampling o = "multi-origin"%string \/ o_sampling o = "single-origin"%string ->
  parser_init geomspace_R (table N T x) idx drift ts ss o = Ok p -> NoDup (p_intervals p) ->
  forall l : GLSParams R RS, l_model l = true -> (forall x y z a, x_curve_fit X x y z = Ok a -> (0 <= a)%R) ->
  forall u, 0 < u_sub_sample_dt u -> forall g b g' dr raw r,
  mstd_bootstrap X u (p_delta_t p) (p_disp_3d p) (p_n_o p) g = Ok (b, g') ->
  generate_covariance_matrix X b l dr = (Some raw, r) -> positive_semidefinite raw.
Proof. exact @C34_mstd_sub_proof. Qed.
Print Assumptions C34_mstd_sub_sample_partial.
Theorem C34_mscd_sub_sample_partial : forall G Seed RS (X : Ext R G Seed RS) N T (x : nat -> nat -> V3 R) idx drift (ts : R) ss o p,
  Forall (valid_site N) idx -> Forall (valid_site N) drift -> sensible T (IZR ss * ts) o -> idx <> [] ->
  o_sampling o = "multi-origin"%string \/ o_sampling o = "single-origin"%string ->
  parser_init geomspace_R (table N T x) idx drift ts ss o = Ok p -> NoDup (p_intervals p) ->
  forall l : GLSParams R RS, l_model l = true -> (forall x y z a, x_curve_fit X x y z = Ok a -> (0 <= a)%R) ->
  forall u, 0 < u_sub_sample_dt u -> forall q g b g' dr raw r,
  (forall l0, q = QArray l0 -> length l0 = length idx) ->
  mscd_bootstrap X u (p_delta_t p) (p_disp_3d p) q (p_n_o p) g = Ok (b, g') ->
  generate_covariance_matrix X b l dr = (Some raw, r) -> positive_semidefinite raw.
Proof. exact @C34_mscd_sub_proof. Qed.
Print Assumptions C34_mscd_sub_sample_partial.
Example C34_sub_sample_example : exists (x : nat -> nat -> V3 R) p (b : Boot R) raw r,
  sensible 10 (IZR 1 * 1) (mkOptions (Some 1) (Some 10) 100 "linear" "multi-origin" 8 8)%R /\ NoDup (p_intervals p)
  /\ parser_init geomspace_R (table 2 10 x) [0;1] [] 1%R 1 (mkOptions (Some 1) (Some 10) 100 "linear" "multi-origin" 8 8)%R = Ok p
  /\ msd_bootstrap (demo_ext 1 1) (demo_boot 3 "xyz") (p_delta_t p) (p_disp_3d p) (p_n_o p) 0%nat = Ok (b, 0%nat)
  /\ generate_covariance_matrix (demo_ext 1 1) b walk_fit 0 = (Some raw, r) /\ length raw = 4%nat.
Proof. exact C34_sub_example_proof. Qed.

(** Ten intervals requested between 1 and 4 frames (1 1 1 2 2 2 3 3 3 4), every third analysed: the
    covariance matrix of the random-walk model has a negative direction. *)
Theorem C34_sub_sample_refuted : exists (x : nat -> nat -> V3 R) p (b : Boot R) raw r,
  sensible 10 (IZR 1 * 1) (mkOptions (Some 1) (Some 4) 10 "linear" "multi-origin" 8 8)%R
  /\ parser_init geomspace_R (table 1 10 x) [0] [] 1%R 1 (mkOptions (Some 1) (Some 4) 10 "linear" "multi-origin" 8 8)%R = Ok p
  /\ msd_bootstrap (demo_ext 1 1) (demo_boot 3 "xyz") (p_delta_t p) (p_disp_3d p) (p_n_o p) 0%nat = Ok (b, 0%nat)
  /\ b_dt b = [1;2;3;4]%R /\ b_n_o b = [4;4;4;2]%R
  /\ generate_covariance_matrix (demo_ext 1 1) b walk_fit 0 = (Some raw, r) /\ ~ positive_semidefinite raw.
Proof. exact C34_sub_refuted_proof. Qed.
Print Assumptions C34_sub_sample_refuted.

(** ** C35 *)

(** The threshold is taken relative to the first eigenvalue returned by np.linalg.eig, which is not
    necessarily the largest: here the eigenvalues come as (1,4), cond_max is 2 and the matrix is
    returned unchanged, with condition number 4. *)
Theorem C35_condition_number_refuted : exists (X : Ext R unit unit unit) m v l c r,
  symmetric m /\ x_eig X m = Ok (l, v) /\ eigendecomposition m v l /\ (1 <= c)%R
  /\ minimum_eigenvalue_method X m c = Ok r /\ ~ condition_at_most r c.
Proof. exact C35_refuted_proof. Qed.
Print Assumptions C35_condition_number_refuted.
(** What is guaranteed: cond_max times the largest over the first eigenvalue; that is cond_max when
    the largest comes first. *)
Theorem C35_condition_number_partial : forall G Seed RS (X : Ext R G Seed RS) m c v l e0 top,
  x_eig X m = Ok (l, v) -> eigendecomposition m v l -> (1 <= c)%R -> nth_error l 0 = Some e0 -> (0 < e0)%R ->
  (forall x, In x l -> (x <= top)%R) ->
  exists r, minimum_eigenvalue_method X m c = Ok r /\ square r (length m) /\ condition_at_most r (c * (top / e0)).
Proof. exact @C35_proof. Qed.
Print Assumptions C35_condition_number_partial.
Example C35_example : eigendecomposition diag14 [[0;1];[1;0]]%R [4;1]%R
  /\ exists r, minimum_eigenvalue_method (eig_ext (fun _ => Ok ([4;1]%R, [[0;1];[1;0]]%R))) diag14 2%R = Ok r
       /\ r = [[2;0];[0;4]]%R.
Proof. split; [exact C35_example_eigen_proof|exact C35_example_proof]. Qed.

(** ** C54 *)
Theorem C54_likelihood_is_normal_density : forall (dt n : list R) (det : R) w g c ld,
  length dt = length n -> square w (length n) -> (0 <= g)%R -> (0 < det)%R ->
  ld = (ln det + ln (2 * PI) * INR (length n))%R ->
  exists l, log_likelihood dt n ld w [g; c] = Ok (Some l) /\ exp l = normal_density det w (residuals dt n g c).
Proof. exact C54_density_proof. Qed.
Print Assumptions C54_likelihood_is_normal_density.
Theorem C54_maximised_by_gls : forall (dt n : list R) (ld : R) w g c g' c' l l',
  length dt = length n -> square w (length n) -> symmetric w -> positive_semidefinite w -> (0 <= g)%R -> (0 <= g')%R ->
  gls_solution w dt n g c -> log_likelihood dt n ld w [g; c] = Ok (Some l) ->
  log_likelihood dt n ld w [g'; c'] = Ok (Some l') -> (l' <= l)%R.
Proof. exact C54_max_proof. Qed.
Print Assumptions C54_maximised_by_gls.
Theorem C54_maximiser_unique : forall (dt n : list R) (ld : R) w g c g' c' l,
  length dt = length n -> square w (length n) -> symmetric w -> positive_definite w ->
  (exists s t, In s dt /\ In t dt /\ s <> t) -> (0 <= g)%R -> (0 <= g')%R ->
  gls_solution w dt n g c -> log_likelihood dt n ld w [g; c] = Ok (Some l) ->
  log_likelihood dt n ld w [g'; c'] = Ok (Some l) -> g' = g /\ c' = c.
Proof. exact C54_unique_proof. Qed.
Print Assumptions C54_maximiser_unique.
Theorem C54_no_intercept : forall (dt n : list R) (ld : R) w g g' l l',
  length dt = length n -> square w (length n) -> symmetric w -> positive_semidefinite w -> (0 <= g)%R -> (0 <= g')%R ->
  gls_solution_no_intercept w dt n g -> log_likelihood dt n ld w [g] = Ok (Some l) ->
  log_likelihood dt n ld w [g'] = Ok (Some l') -> (l' <= l)%R.
Proof. exact C54_max1_proof. Qed.
Print Assumptions C54_no_intercept.
(** [None] is minus infinity. *)
Theorem C54_negative_gradient : forall (dt n : list R) (ld : R) w g rest, (g < 0)%R ->
  log_likelihood dt n ld w (g :: rest) = Ok None.
Proof. exact C54_negative_proof. Qed.
Print Assumptions C54_negative_gradient.
Example C54_example : gls_solution id2 [1;2]%R [2;4]%R 2 0 /\ positive_definite id2 /\ symmetric id2 /\ square id2 2.
Proof. exact C54_example_proof. Qed.
