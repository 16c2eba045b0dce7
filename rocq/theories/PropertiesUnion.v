(** * PropertiesUnion: C71 several species at once *)
From Verif Require Import Base Spec SpecParser SpecStats SpecFit SpecAnalyzer ModelParser ModelDiffusion ModelHdf ModelAnalyzer
  ProofsTraj ProofsAnalyzer SpecRun SpecSym SpecInterfaces ProofsUnion.
From Coq Require Import Reals.
Open Scope Z_scope.

(** ** C71

    Two sets of species without a common name, a framework given by its atoms, and at least two
    atoms in either set. The parse of both together holds the series of both. *)
Theorem C71_series : forall (parse : parser_of) geo circ (a : ModelParser.Params R) t s1 s2 fw p p1 p2, In parse parsers ->
  disjoint_names s1 s2 -> a_framework a = PyList fw ->
  parse geo circ t (with_specie (s1 ++ s2)%list a) = Ok p -> parse geo circ t (with_specie s1 a) = Ok p1 -> parse geo circ t (with_specie s2 a) = Ok p2 ->
  (1 < length (p_indices p1))%nat -> (1 < length (p_indices p2))%nat -> joint_parse p1 p2 p.
Proof. exact C71_proof. Qed.
Print Assumptions C71_series.
(** The MSD of both together is the mean of the two, weighted with the numbers of atoms. *)
Theorem C71_msd_is_weighted_mean : forall G Seed RS (X : Ext R G Seed RS) (parse : parser_of) circ (a : ModelParser.Params R) t s1 s2 fw p p1 p2
  u g g1 g2 an an1 an2 h h1 h2, In parse parsers ->
  disjoint_names s1 s2 -> a_framework a = PyList fw ->
  parse geomspace_R circ t (with_specie (s1 ++ s2)%list a) = Ok p -> parse geomspace_R circ t (with_specie s1 a) = Ok p1 -> parse geomspace_R circ t (with_specie s2 a) = Ok p2 ->
  (1 < length (p_indices p1))%nat -> (1 < length (p_indices p2))%nat -> 0 < u_sub_sample_dt u -> u_block u = false ->
  diffusion_analyzer X (of_parsed p) u g = Ok (an, h) -> diffusion_analyzer X (of_parsed p1) u g1 = Ok (an1, h1) ->
  diffusion_analyzer X (of_parsed p2) u g2 = Ok (an2, h2) ->
  forall i m m1 m2, nth_error (b_n (an_diff an)) i = Some m -> nth_error (b_n (an_diff an1)) i = Some m1 -> nth_error (b_n (an_diff an2)) i = Some m2 ->
  (m = (INR (length (p_indices p1)) * m1 + INR (length (p_indices p2)) * m2) / (INR (length (p_indices p1)) + INR (length (p_indices p2))))%R.
Proof. exact @C71_msd_proof. Qed.
Print Assumptions C71_msd_is_weighted_mean.
Example C71_example : forall circ, disjoint_names ["Li"%string] ["Na"%string]
  /\ (exists p, ase_parser geomspace_R circ two_kinds (with_specie ["Li"; "Na"]%string kinds_params) = Ok p /\ length (p_disp_3d p) = 1%nat)
  /\ (exists p, ase_parser geomspace_R circ two_kinds (with_specie ["Li"]%string kinds_params) = Ok p /\ length (p_indices p) = 2%nat)
  /\ (exists p, ase_parser geomspace_R circ two_kinds (with_specie ["Na"]%string kinds_params) = Ok p /\ length (p_indices p) = 2%nat).
Proof. exact C71_example_proof. Qed.
