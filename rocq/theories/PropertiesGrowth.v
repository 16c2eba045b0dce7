(** * PropertiesGrowth: C117, how fast displacement curves can grow *)
From Verif Require Import Base Spec SpecParser SpecStats SpecRun SpecTrue SpecLive SpecGrowth ModelParser ModelDiffusion ModelHdf ModelAnalyzer ProofsIntervals ProofsTraj ProofsStats ProofsTrue ProofsLive ProofsGrowth.
From Coq Require Import Reals.
Open Scope nat_scope.

(** ** C117 *)
(** For every documented input, the reported mean squared displacements are not negative, their travel obeys the triangle
    inequality, and [c] times the interval multiplies them by at most c^2, up to the ratio of the numbers of windows. *)
Theorem C117_msd : forall G Seed RS (X : Ext R G Seed RS) i frames types a p u g an g',
  documented i frames types a -> o_sampling (a_opts a) = "multi-origin"%string ->
    parser_by i geomspace_R circular_mean_R frames a = Ok p -> (0 < u_sub_sample_dt u)%Z -> u_block u = false -> diffusion_analyzer X (of_parsed p) u g = Ok (an, g') ->
    grows_slowly (kept (length frames) (Z.to_nat (a_sub_sample_traj a))) p (Z.to_nat (u_sub_sample_dt u)) (an_diff an).
Proof. exact @C117_msd_proof. Qed.
Print Assumptions C117_msd.
(** The same for mean squared total displacements. *)
Theorem C117_mstd : forall G Seed RS (X : Ext R G Seed RS) i frames types a p u g an g',
  documented i frames types a -> o_sampling (a_opts a) = "multi-origin"%string ->
    parser_by i geomspace_R circular_mean_R frames a = Ok p -> (0 < u_sub_sample_dt u)%Z -> u_block u = false -> jump_diffusion_analyzer X (of_parsed p) u g = Ok (an, g') ->
    grows_slowly (kept (length frames) (Z.to_nat (a_sub_sample_traj a))) p (Z.to_nat (u_sub_sample_dt u)) (an_diff an).
Proof. exact @C117_mstd_proof. Qed.
Print Assumptions C117_mstd.
(** The same for mean squared charge displacements. *)
Theorem C117_mscd : forall G Seed RS (X : Ext R G Seed RS) i frames types types' a p q u g an g',
  documented i frames types a -> types_read i types types' a -> o_sampling (a_opts a) = "multi-origin"%string ->
    parser_by i geomspace_R circular_mean_R frames a = Ok p -> (forall l, q = QArray l -> length l = followed types' a) -> (0 < u_sub_sample_dt u)%Z -> u_block u = false ->
    conductivity_analyzer X (of_parsed p) q u g = Ok (an, g') ->
    grows_slowly (kept (length frames) (Z.to_nat (a_sub_sample_traj a))) p (Z.to_nat (u_sub_sample_dt u)) (an_diff an).
Proof. exact @C117_mscd_proof. Qed.
Print Assumptions C117_mscd.
(** Without the ratio of the numbers of windows it is false: doubling the interval can more than quadruple the value. *)
Theorem C117_plain_ballistic_bound_refuted : forall G Seed RS (X : Ext R G Seed RS) (g : G), exists frames types a p an j j' m v v',
  documented Ase frames types a /\ o_sampling (a_opts a) = "multi-origin"%string /\ parser_by Ase geomspace_R circular_mean_R frames a = Ok p
  /\ diffusion_analyzer X (of_parsed p) (demo_boot 1 "xyz") g = Ok (an, g)
  /\ shown p 1 (an_diff an) j m v /\ shown p 1 (an_diff an) j' (2 * m) v' /\ (2 * 2 * v < v')%R.
Proof. exact C117_refuted_proof. Qed.
Print Assumptions C117_plain_ballistic_bound_refuted.
(** A run that meets the hypotheses, with what it reports. *)
Example C117_example : forall G Seed RS (X : Ext R G Seed RS) (g : G), exists frames p an,
  documented Ase frames ["Li"; "O"]%string walk_params /\ length frames = 4 /\ parser_by Ase geomspace_R circular_mean_R frames walk_params = Ok p
  /\ diffusion_analyzer X (of_parsed p) (demo_boot 1 "xyz") g = Ok (an, g)
  /\ shown p 1 (an_diff an) 0 1 (9 / 400)%R /\ shown p 1 (an_diff an) 1 2 (29 / 300)%R.
Proof. exact spurt_run. Qed.
