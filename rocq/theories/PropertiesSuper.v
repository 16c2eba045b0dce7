(** * PropertiesSuper: C83 supercells *)
From Verif Require Import Base Spec SpecParser SpecStats ModelParser ModelDiffusion ModelHdf ModelAnalyzer
  ProofsTraj ProofsStats SpecRun SpecPool SpecTrue ProofsTrue ProofsSuper.
From Coq Require Import Reals.
Open Scope Z_scope.

(** ** C83
    The trajectory of a supercell of [c] copies, in any periodic images, gives the same intervals and
    times, every displacement [c] times over, and [c] times as many independent observations. *)
Theorem C83_displacements : forall i circ s shift c cell types vol vol' n natoms k x img a p p' sp,
  faithful_read i circ cell types vol n natoms k x a p -> a_specie a = Some sp -> (0 < c)%nat -> (0 < vx s)%nat -> (0 < vy s)%nat -> (0 < vz s)%nat ->
  parser_by i geomspace_R circ (supercell_frames i s c shift cell types vol' n natoms x img) a = Ok p' ->
  p_intervals p' = p_intervals p /\ p_delta_t p' = p_delta_t p /\ length (p_indices p') = (c * length (p_indices p))%nat
  /\ (forall q d, nth_error (p_disp_3d p) q = Some d -> nth_error (p_disp_3d p') q = Some (copies c d))
  /\ (forall q no, nth_error (p_n_o p) q = Some no -> nth_error (p_n_o p') q = Some (INR c * no)%R).
Proof. exact C83_displacements_proof. Qed.
Print Assumptions C83_displacements.
(** So every interval reported for the small cell is reported for the large one, with the same mean
    squared displacement and non-Gaussian parameter; the variance is divided by [c], but for the
    N-1 of the sample variance of N displacements. *)
Theorem C83_diffusion : forall G Seed RS (X : Ext R G Seed RS) i circ s shift c cell types vol vol' n natoms k x img a p p' sp u g an g' h an' h',
  faithful_read i circ cell types vol n natoms k x a p -> a_specie a = Some sp -> (0 < c)%nat -> (0 < vx s)%nat -> (0 < vy s)%nat -> (0 < vz s)%nat ->
  parser_by i geomspace_R circ (supercell_frames i s c shift cell types vol' n natoms x img) a = Ok p' ->
  0 < u_sub_sample_dt u -> u_block u = false ->
  diffusion_analyzer X (of_parsed p) u g = Ok (an, g') -> diffusion_analyzer X (of_parsed p') u h = Ok (an', h') ->
  forall j t, nth_error (b_dt (an_diff an)) j = Some t -> nth_error (b_dt (an_diff an')) j = Some t
    /\ exists m gp e v v', nth_error (b_n (an_diff an)) j = Some m /\ nth_error (b_n (an_diff an')) j = Some m
      /\ nth_error (b_ngp (an_diff an)) j = Some gp /\ nth_error (b_ngp (an_diff an')) j = Some gp
      /\ nth_error (b_euclidian (an_diff an)) j = Some e /\ nth_error (b_euclidian (an_diff an')) j = Some (List.concat (repeat e c))
      /\ nth_error (b_v (an_diff an)) j = Some v /\ nth_error (b_v (an_diff an')) j = Some v'
      /\ (v' * (INR c * INR (length e) - 1) = v * (INR (length e) - 1))%R.
Proof. exact @C83_diffusion_proof. Qed.
Print Assumptions C83_diffusion.
(** Collective mean squared displacements (of the ions, or of the charge [q] each) grow by c^2, their
    variances by c^4. *)
Theorem C83_collective : forall G Seed RS (X : Ext R G Seed RS) i circ s shift c cell types vol vol' n natoms k x img a p p' sp u q,
  faithful_read i circ cell types vol n natoms k x a p -> a_specie a = Some sp -> (0 < c)%nat -> (0 < vx s)%nat -> (0 < vy s)%nat -> (0 < vz s)%nat ->
  parser_by i geomspace_R circ (supercell_frames i s c shift cell types vol' n natoms x img) a = Ok p' ->
  0 < u_sub_sample_dt u -> u_block u = false -> forall g an g' h an' h',
  (jump_diffusion_analyzer X (of_parsed p) u g = Ok (an, g') /\ jump_diffusion_analyzer X (of_parsed p') u h = Ok (an', h'))
  \/ (conductivity_analyzer X (of_parsed p) (QScalar q) u g = Ok (an, g') /\ conductivity_analyzer X (of_parsed p') (QScalar q) u h = Ok (an', h')) ->
  grown c (an_diff an) (an_diff an').
Proof. exact @C83_collective_proof. Qed.
Print Assumptions C83_collective.
Example C83_example : forall G Seed RS (X : Ext R G Seed RS) circ (g : G) s, gentle s -> exists p p' an an' jn jn' cn cn',
  faithful_read Ase circ unit_cell ["Li"; "O"]%string 1%R 4 2 1 (walk s) walk_params p
  /\ parser_by Ase geomspace_R circ (supercell_frames Ase doubled 2 one_along unit_cell ["Li"; "O"]%string 2%R 4 2 (walk s) no_image) walk_params = Ok p'
  /\ diffusion_analyzer X (of_parsed p) (demo_boot 1 "xyz") g = Ok (an, g) /\ diffusion_analyzer X (of_parsed p') (demo_boot 1 "xyz") g = Ok (an', g)
  /\ jump_diffusion_analyzer X (of_parsed p) (demo_boot 1 "xyz") g = Ok (jn, g) /\ jump_diffusion_analyzer X (of_parsed p') (demo_boot 1 "xyz") g = Ok (jn', g)
  /\ conductivity_analyzer X (of_parsed p) (QScalar 1%R) (demo_boot 1 "xyz") g = Ok (cn, g) /\ conductivity_analyzer X (of_parsed p') (QScalar 1%R) (demo_boot 1 "xyz") g = Ok (cn', g)
  /\ b_dt (an_diff an) = [1; 2]%R /\ p_indices p = [0] /\ p_indices p' = [0; 2].
Proof. exact C83_example_proof. Qed.
