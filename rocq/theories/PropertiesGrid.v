(** * PropertiesGrid: C78 what is reported for one interval does not depend on the other intervals *)
From Verif Require Import Base Spec SpecParser SpecStats ModelParser ModelDiffusion ModelHdf ModelAnalyzer
  ProofsTraj ProofsFit2 ProofsStats ProofsAnalyzer SpecRun SpecGrid ProofsGrid.
From Coq Require Import Reals.
Open Scope Z_scope.

(** ** C78
    One trajectory is read twice with different interval options (minimum, maximum, number, spacing,
    memory limit). Where the two sets of intervals share an interval, its time and its displacements
    are the same (or it is left out both times). *)
Theorem C78_displacements : forall (parse : parser_of) geo circ t (a : ModelParser.Params R) o o' p p', In parse parsers ->
  o_sampling o = "multi-origin"%string -> o_sampling o' = "multi-origin"%string ->
  parse geo circ t (with_options o a) = Ok p -> parse geo circ t (with_options o' a) = Ok p' ->
  ascending (p_intervals p) -> ascending (p_intervals p') ->
  forall k k' n, nth_error (p_intervals p) k = Some n -> nth_error (p_intervals p') k' = Some n ->
    nth_error (p_disp_3d p) k = nth_error (p_disp_3d p') k' /\ nth_error (p_delta_t p) k = nth_error (p_delta_t p') k'.
Proof. exact C78_displacements_proof. Qed.
Print Assumptions C78_displacements.
(** So are the mean squared displacement (of the chosen analyser class), the non-Gaussian parameter
    and the distances, also with another sub_sample_dt, other resampling settings and other random
    numbers. *)
Theorem C78_statistics : forall G Seed RS (X : Ext R G Seed RS) (parse : parser_of) circ t (a : ModelParser.Params R) o o' p p' q u u' an an', In parse parsers ->
  o_sampling o = "multi-origin"%string -> o_sampling o' = "multi-origin"%string ->
  parse geomspace_R circ t (with_options o a) = Ok p -> parse geomspace_R circ t (with_options o' a) = Ok p' ->
  ascending (p_intervals p) -> ascending (p_intervals p') ->
  0 < u_sub_sample_dt u -> 0 < u_sub_sample_dt u' -> u_block u = false -> u_block u' = false ->
  pystr_text (u_dimension u) = pystr_text (u_dimension u') -> (forall l, q = QArray l -> length l = length (p_indices p)) ->
  analysed_alike X (of_parsed p) (of_parsed p') q u u' an an' ->
  same_where_shared b_n (an_diff an) (an_diff an') /\ same_where_shared b_ngp (an_diff an) (an_diff an')
  /\ same_where_shared b_euclidian (an_diff an) (an_diff an').
Proof. exact @C78_statistics_proof. Qed.
Print Assumptions C78_statistics.
Example C78_example : forall G Seed RS (X : Ext R G Seed RS) circ (g : G), let a := hop_params 1 (PyFloat 1%R) one_step in
  exists p p' an an', ase_parser geomspace_R circ (hop_frames 3) (with_options (upto 3 3) a) = Ok p
    /\ ase_parser geomspace_R circ (hop_frames 3) (with_options (upto 2 2) a) = Ok p'
    /\ ascending (p_intervals p) /\ ascending (p_intervals p')
    /\ analysed_alike X (of_parsed p) (of_parsed p') (QScalar 1%R) (demo_boot 1 "xyz") (demo_boot 1 "xyz") an an'
    /\ nth_error (b_dt (an_diff an)) 0 = Some 1%R /\ nth_error (b_dt (an_diff an')) 0 = Some 1%R.
Proof. exact @C78_example_proof. Qed.
(** The number of independent observations is not: it is proportional to the longest interval
    analysed, ... *)
Theorem C78_origins_refuted : forall circ, let a := hop_params 1 (PyFloat 1%R) one_step in
  exists p p', ase_parser geomspace_R circ (hop_frames 3) (with_options (upto 3 3) a) = Ok p
    /\ ase_parser geomspace_R circ (hop_frames 3) (with_options (upto 2 2) a) = Ok p'
    /\ p_intervals p = [1; 2; 3] /\ p_intervals p' = [1; 2] /\ ascending (p_intervals p) /\ ascending (p_intervals p')
    /\ nth_error (p_disp_3d p) 0 = nth_error (p_disp_3d p') 0 /\ length (p_disp_3d p') = 1%nat
    /\ nth_error (p_n_o p) 0 = Some 3%R /\ nth_error (p_n_o p') 0 = Some 2%R.
Proof. exact C78_refuted_proof. Qed.
Print Assumptions C78_origins_refuted.
Theorem C78_origins : forall (parse : parser_of) geo circ t (a : ModelParser.Params R) o o' p p', In parse parsers ->
  o_sampling o = "multi-origin"%string -> o_sampling o' = "multi-origin"%string ->
  parse geo circ t (with_options o a) = Ok p -> parse geo circ t (with_options o' a) = Ok p' ->
  ascending (p_intervals p) -> ascending (p_intervals p') ->
  forall k k' n c, nth_error (p_intervals p) k = Some n -> nth_error (p_intervals p') k' = Some n -> nth_error (p_n_o p) k = Some c ->
    exists c', nth_error (p_n_o p') k' = Some c' /\ (c * longest p' = c' * longest p)%R.
Proof. exact C78_origins_proof. Qed.
Print Assumptions C78_origins.
(** ... and the reported variance is inversely proportional to it. *)
Theorem C78_variances : forall G Seed RS (X : Ext R G Seed RS) (parse : parser_of) circ t (a : ModelParser.Params R) o o' p p' q u u' an an', In parse parsers ->
  o_sampling o = "multi-origin"%string -> o_sampling o' = "multi-origin"%string ->
  parse geomspace_R circ t (with_options o a) = Ok p -> parse geomspace_R circ t (with_options o' a) = Ok p' ->
  ascending (p_intervals p) -> ascending (p_intervals p') ->
  u_sub_sample_dt u = 1 -> u_sub_sample_dt u' = 1 -> u_block u = false -> u_block u' = false ->
  pystr_text (u_dimension u) = pystr_text (u_dimension u') -> (forall l, q = QArray l -> length l = length (p_indices p)) ->
  analysed_alike X (of_parsed p) (of_parsed p') q u u' an an' ->
  forall i j x, nth_error (b_dt (an_diff an)) i = Some x -> nth_error (b_dt (an_diff an')) j = Some x ->
    exists v v', nth_error (b_v (an_diff an)) i = Some v /\ nth_error (b_v (an_diff an')) j = Some v' /\ (v * longest p = v' * longest p')%R.
Proof. exact @C78_variances_proof. Qed.
Print Assumptions C78_variances.
