(** * PropertiesTwice: C118, indices named more than once *)
From Verif Require Import Base Spec SpecParser SpecStats SpecRun SpecTrue SpecLive SpecOrder SpecTwice ModelParser ModelDiffusion ModelHdf ModelAnalyzer ProofsIntervals ProofsTraj ProofsStats ProofsTrue ProofsLive ProofsTwice.
From Coq Require Import Reals.
Open Scope nat_scope.

(** ** C118
    [l'] names every index of [l] exactly [c] times as often. The framework, intervals and times stay. At least as many intervals
    are observed; with two indices or more exactly as many, and the numbers of observations are [c] times as large. *)
Theorem C118_read : forall i frames types a c l l' p p', documented i frames types a -> a_specie a = None -> a_specie_indices a = SIFlat l ->
  o_sampling (a_opts a) = "multi-origin"%string -> 0 < c -> named_again c l l' ->
  parser_by i geomspace_R circular_mean_R frames a = Ok p -> parser_by i geomspace_R circular_mean_R frames (with_indices a l') = Ok p' ->
  p_intervals p' = p_intervals p /\ p_delta_t p' = p_delta_t p /\ p_drift_indices p' = p_drift_indices p
  /\ length (p_disp_3d p) <= length (p_disp_3d p')
  /\ (2 <= length l -> length (p_disp_3d p') = length (p_disp_3d p) /\ p_n_o p' = map (Rmult (INR c)) (p_n_o p)).
Proof. exact C118_read_proof. Qed.
Print Assumptions C118_read.
(** Mean squared displacements stay; their variances shrink as if there were [c] times as many atoms. *)
Theorem C118_msd : forall G Seed RS (X : Ext R G Seed RS) i frames types a c l l' p p', documented i frames types a -> a_specie a = None -> a_specie_indices a = SIFlat l ->
  o_sampling (a_opts a) = "multi-origin"%string -> 0 < c -> named_again c l l' ->
  parser_by i geomspace_R circular_mean_R frames a = Ok p -> parser_by i geomspace_R circular_mean_R frames (with_indices a l') = Ok p' ->
  forall u g g' h h' an an' j m t t', (0 < u_sub_sample_dt u)%Z -> u_block u = false ->
  nth_error (p_intervals p) (j * Z.to_nat (u_sub_sample_dt u)) = Some (Z.of_nat m) ->
  nth_error (b_dt (an_diff an)) j = Some t -> nth_error (b_dt (an_diff an')) j = Some t' ->
  diffusion_analyzer X (of_parsed p) u g = Ok (an, g') -> diffusion_analyzer X (of_parsed p') u h = Ok (an', h') ->
  let M := INR (length l * (kept (length frames) (Z.to_nat (a_sub_sample_traj a)) - m + 1)) in
  multiplied (an_diff an) (an_diff an') j 1 ((M - 1) / (INR c * M - 1)).
Proof. exact @C118_msd_proof. Qed.
Print Assumptions C118_msd.
(** Mean squared total displacements are c^2 times as large, their variances c^4 times. *)
Theorem C118_mstd : forall G Seed RS (X : Ext R G Seed RS) i frames types a c l l' p p', documented i frames types a -> a_specie a = None -> a_specie_indices a = SIFlat l ->
  o_sampling (a_opts a) = "multi-origin"%string -> 0 < c -> named_again c l l' ->
  parser_by i geomspace_R circular_mean_R frames a = Ok p -> parser_by i geomspace_R circular_mean_R frames (with_indices a l') = Ok p' ->
  forall u g g' h h' an an' j m t t', (0 < u_sub_sample_dt u)%Z -> u_block u = false ->
  nth_error (p_intervals p) (j * Z.to_nat (u_sub_sample_dt u)) = Some (Z.of_nat m) ->
  nth_error (b_dt (an_diff an)) j = Some t -> nth_error (b_dt (an_diff an')) j = Some t' ->
  jump_diffusion_analyzer X (of_parsed p) u g = Ok (an, g') -> jump_diffusion_analyzer X (of_parsed p') u h = Ok (an', h') ->
  multiplied (an_diff an) (an_diff an') j (INR c * INR c) (INR c * INR c * (INR c * INR c)).
Proof. exact @C118_mstd_proof. Qed.
Print Assumptions C118_mstd.
(** So are mean squared charge displacements with one charge for all ions. *)
Theorem C118_mscd : forall G Seed RS (X : Ext R G Seed RS) i frames types a c l l' p p', documented i frames types a -> a_specie a = None -> a_specie_indices a = SIFlat l ->
  o_sampling (a_opts a) = "multi-origin"%string -> 0 < c -> named_again c l l' ->
  parser_by i geomspace_R circular_mean_R frames a = Ok p -> parser_by i geomspace_R circular_mean_R frames (with_indices a l') = Ok p' ->
  forall u g g' h h' an an' j m t t', (0 < u_sub_sample_dt u)%Z -> u_block u = false ->
  nth_error (p_intervals p) (j * Z.to_nat (u_sub_sample_dt u)) = Some (Z.of_nat m) ->
  nth_error (b_dt (an_diff an)) j = Some t -> nth_error (b_dt (an_diff an')) j = Some t' -> forall q,
  conductivity_analyzer X (of_parsed p) (QScalar q) u g = Ok (an, g') -> conductivity_analyzer X (of_parsed p') (QScalar q) u h = Ok (an', h') ->
  multiplied (an_diff an) (an_diff an') j (INR c * INR c) (INR c * INR c * (INR c * INR c)).
Proof. exact @C118_mscd_proof. Qed.
Print Assumptions C118_mscd.
(** That only the set of named atoms matters is false. *)
Theorem C118_set_of_indices_refuted : forall G Seed RS (X : Ext R G Seed RS) (g : G), exists frames types a l l' p p' an an' v v',
  documented Ase frames types a /\ a_specie a = None /\ a_specie_indices a = SIFlat l /\ (forall z, In z l <-> In z l')
  /\ parser_by Ase geomspace_R circular_mean_R frames a = Ok p /\ parser_by Ase geomspace_R circular_mean_R frames (with_indices a l') = Ok p'
  /\ jump_diffusion_analyzer X (of_parsed p) (demo_boot 1 "xyz") g = Ok (an, g) /\ jump_diffusion_analyzer X (of_parsed p') (demo_boot 1 "xyz") g = Ok (an', g)
  /\ nth_error (b_n (an_diff an)) 0 = Some v /\ nth_error (b_n (an_diff an')) 0 = Some v' /\ v <> v'.
Proof. exact C118_refuted_proof. Qed.
Print Assumptions C118_set_of_indices_refuted.
(** One atom named twice. *)
Example C118_example : forall G Seed RS (X : Ext R G Seed RS) (g : G), exists frames a p p' jn jn' an an',
  documented Ase frames ["Li"; "O"]%string a /\ a_specie a = None /\ a_specie_indices a = SIFlat [0%Z] /\ o_sampling (a_opts a) = "multi-origin"%string
  /\ named_again 2 [0%Z] [0; 0]%Z /\ length frames = 4 /\ a_sub_sample_traj a = 1%Z
  /\ parser_by Ase geomspace_R circular_mean_R frames a = Ok p
  /\ parser_by Ase geomspace_R circular_mean_R frames (with_indices a [0; 0]%Z) = Ok p'
  /\ nth_error (p_intervals p) 0 = Some 1%Z
  /\ jump_diffusion_analyzer X (of_parsed p) (demo_boot 1 "xyz") g = Ok (jn, g) /\ jump_diffusion_analyzer X (of_parsed p') (demo_boot 1 "xyz") g = Ok (jn', g)
  /\ diffusion_analyzer X (of_parsed p) (demo_boot 1 "xyz") g = Ok (an, g) /\ diffusion_analyzer X (of_parsed p') (demo_boot 1 "xyz") g = Ok (an', g)
  /\ nth_error (b_n (an_diff jn)) 0 = Some (3 / 400)%R /\ nth_error (b_n (an_diff jn')) 0 = Some (3 / 100)%R
  /\ multiplied (an_diff an) (an_diff an') 0 1 (3 / 7).
Proof. exact twice_run. Qed.
