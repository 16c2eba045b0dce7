(** * PropertiesCentres: C95 molecules followed as if they were atoms

    [circular_mean_R] is the code's circular mean over the reals, [centres] are the true centres of mass of the molecules
    followed by the framework atoms, and [sites] is their number. *)
From Verif Require Import Base Spec SpecParser SpecStats SpecMol ModelParser ModelDiffusion ModelHdf ModelAnalyzer
  ProofsTraj ProofsStats ProofsMolTraj SpecRun SpecPool SpecTrue ProofsTrue SpecColl SpecStable SpecCentres ProofsCentres.
From Coq Require Import Reals.
Open Scope Z_scope.

(** ** C95
    Reading molecules gives exactly what reading a trajectory of atoms placed at their centres of mass gives: the same
    displacements, times, sample counts and selection. No bound on the steps between frames is needed, and the
    trajectory of the centres may be in any periodic images. *)
Theorem C95_molecules_as_atoms : forall i cell types types' vol n natoms k x (a : Params R) indices fw p circ (img : nat -> nat -> V3 Z),
  molecule_read i cell types vol n natoms k x a indices fw p -> length types' = sites indices fw ->
  parser_by i geomspace_R circ (handed_over i cell types' vol n (sites indices fw)
     (fun f b => plus3 (centres natoms (a_masses a) indices fw x f b) (ivec (img f b)))) (following a (centre_ids indices)) = Ok p.
Proof. exact C95_proof. Qed.
Print Assumptions C95_molecules_as_atoms.
(** So whatever is known of faithful readings of atoms (C81 to C93) holds of molecules. *)
Theorem C95_faithful : forall i cell types vol n natoms k x (a : Params R) indices fw p circ types',
  molecule_read i cell types vol n natoms k x a indices fw p -> well_sampled i n natoms k x a indices fw -> length types' = sites indices fw ->
  faithful_read i circ cell types' vol n (sites indices fw) k (centres natoms (a_masses a) indices fw x) (following a (centre_ids indices)) p.
Proof. exact C95_faithful_proof. Qed.
Print Assumptions C95_faithful.
(** The reported mean squared displacement: the [T - m] windows of the centres of mass averaged together with one of
    [m - 1] frames at the start (as C81 for atoms). *)
Theorem C95_reported_msd : forall G Seed RS (X : Ext R G Seed RS) i cell types vol n natoms k x (a : Params R) indices fw p u,
  molecule_read i cell types vol n natoms k x a indices fw p -> well_sampled i n natoms k x a indices fw -> 0 < u_sub_sample_dt u -> u_block u = false ->
  forall axes g an g', names (pystr_text (u_dimension u)) axes -> diffusion_analyzer X (of_parsed p) u g = Ok (an, g') ->
  forall j t, nth_error (b_dt (an_diff an)) j = Some t ->
  exists m, nth_error (p_intervals p) (j * Z.to_nat (u_sub_sample_dt u)) = Some (Z.of_nat m) /\ nth_error (p_delta_t p) (j * Z.to_nat (u_sub_sample_dt u)) = Some t
    /\ (0 < m <= kept n k)%nat
    /\ let T := kept n k in let N := sites indices fw in let pos f b := cart cell (centres natoms (a_masses a) indices fw x f b) in
       nth_error (b_n (an_diff an)) j = Some ((INR (T - m) * true_msd axes N k pos (centre_ids indices) (framework_ids indices fw) T m
           + square_between axes N k pos (centre_ids indices) (framework_ids indices fw) 0 (m - 1)) / INR (T - m + 1))%R.
Proof. exact @C95_msd_proof. Qed.
Print Assumptions C95_reported_msd.
Theorem C95_reported_mstd : forall G Seed RS (X : Ext R G Seed RS) i cell types vol n natoms k x (a : Params R) indices fw p u,
  molecule_read i cell types vol n natoms k x a indices fw p -> well_sampled i n natoms k x a indices fw -> 0 < u_sub_sample_dt u -> u_block u = false ->
  forall axes g an g', names (pystr_text (u_dimension u)) axes -> jump_diffusion_analyzer X (of_parsed p) u g = Ok (an, g') ->
  forall j t, nth_error (b_dt (an_diff an)) j = Some t ->
  exists m, nth_error (p_intervals p) (j * Z.to_nat (u_sub_sample_dt u)) = Some (Z.of_nat m) /\ nth_error (p_delta_t p) (j * Z.to_nat (u_sub_sample_dt u)) = Some t
    /\ (0 < m <= kept n k)%nat
    /\ let T := kept n k in
       let between := total_between axes (sites indices fw) k (fun f b => cart cell (centres natoms (a_masses a) indices fw x f b)) (centre_ids indices) (framework_ids indices fw) in
       nth_error (b_n (an_diff an)) j = Some ((INR (T - m) * over_time T m between + between 0%nat (m - 1)%nat) / INR (T - m + 1))%R.
Proof. exact @C95_mstd_proof. Qed.
Print Assumptions C95_reported_mstd.
(** Rotation and vibration do not count: if the centres of mass (and the framework atoms) rest, zero is reported,
    whatever the atoms of the molecules do. *)
Theorem C95_internal_motion : forall G Seed RS (X : Ext R G Seed RS) i cell types vol n natoms k x (a : Params R) indices fw p u,
  molecule_read i cell types vol n natoms k x a indices fw p -> well_sampled i n natoms k x a indices fw -> 0 < u_sub_sample_dt u -> u_block u = false ->
  forall axes g g1 an centre, names (pystr_text (u_dimension u)) axes ->
  (forall f b, (f * k < n)%nat -> (b < sites indices fw)%nat -> centres natoms (a_masses a) indices fw x (f * k)%nat b = centre b) ->
  diffusion_analyzer X (of_parsed p) u g = Ok (an, g1) -> forall j t, nth_error (b_dt (an_diff an)) j = Some t -> nth_error (b_n (an_diff an)) j = Some 0%R.
Proof. exact @C95_internal_proof. Qed.
Print Assumptions C95_internal_motion.
(** C93 for molecules: atoms nowhere more than [eps] away from another trajectory of the same molecules. *)
Theorem C95_msd_is_stable : forall G Seed RS (X : Ext R G Seed RS) i cell types vol n natoms k x (a : Params R) indices fw p u,
  molecule_read i cell types vol n natoms k x a indices fw p -> well_sampled i n natoms k x a indices fw -> 0 < u_sub_sample_dt u -> u_block u = false ->
  forall cell' vol' x' p' eps, molecule_read i cell' types vol' n natoms k x' a indices fw p' -> well_sampled i n natoms k x' a indices fw -> (0 <= eps)%R ->
  forall axes g g1 an h h1 an', names (pystr_text (u_dimension u)) axes -> near axes n natoms k eps (fun f b => cart cell (x f b)) (fun f b => cart cell' (x' f b)) ->
  diffusion_analyzer X (of_parsed p) u g = Ok (an, g1) -> diffusion_analyzer X (of_parsed p') u h = Ok (an', h1) ->
  forall j t t', nth_error (b_dt (an_diff an)) j = Some t -> nth_error (b_dt (an_diff an')) j = Some t' -> t = t' /\ exists v v',
    nth_error (b_n (an_diff an)) j = Some v /\ nth_error (b_n (an_diff an')) j = Some v' /\ (Rabs (sqrt v - sqrt v') <= ends (p_drift_indices p) * eps)%R.
Proof. exact @C95_near_proof. Qed.
Print Assumptions C95_msd_is_stable.
Theorem C95_mstd_is_stable : forall G Seed RS (X : Ext R G Seed RS) i cell types vol n natoms k x (a : Params R) indices fw p u,
  molecule_read i cell types vol n natoms k x a indices fw p -> well_sampled i n natoms k x a indices fw -> 0 < u_sub_sample_dt u -> u_block u = false ->
  forall cell' vol' x' p' eps, molecule_read i cell' types vol' n natoms k x' a indices fw p' -> well_sampled i n natoms k x' a indices fw -> (0 <= eps)%R ->
  forall axes g g1 an h h1 an', names (pystr_text (u_dimension u)) axes -> near axes n natoms k eps (fun f b => cart cell (x f b)) (fun f b => cart cell' (x' f b)) ->
  jump_diffusion_analyzer X (of_parsed p) u g = Ok (an, g1) -> jump_diffusion_analyzer X (of_parsed p') u h = Ok (an', h1) ->
  forall j t t', nth_error (b_dt (an_diff an)) j = Some t -> nth_error (b_dt (an_diff an')) j = Some t' -> t = t' /\ exists v v',
    nth_error (b_n (an_diff an)) j = Some v /\ nth_error (b_n (an_diff an')) j = Some v'
    /\ (Rabs (sqrt v - sqrt v') <= INR (length indices) * (ends (p_drift_indices p) * eps))%R.
Proof. exact @C95_near_together_proof. Qed.
Print Assumptions C95_mstd_is_stable.
Theorem C95_mscd_is_stable : forall G Seed RS (X : Ext R G Seed RS) i cell types vol n natoms k x (a : Params R) indices fw p u,
  molecule_read i cell types vol n natoms k x a indices fw p -> well_sampled i n natoms k x a indices fw -> 0 < u_sub_sample_dt u -> u_block u = false ->
  forall cell' vol' x' p' eps, molecule_read i cell' types vol' n natoms k x' a indices fw p' -> well_sampled i n natoms k x' a indices fw -> (0 <= eps)%R ->
  forall q g g1 an h h1 an', (forall l, q = QArray l -> length l = length indices) -> near all_axes n natoms k eps (fun f b => cart cell (x f b)) (fun f b => cart cell' (x' f b)) ->
  conductivity_analyzer X (of_parsed p) q u g = Ok (an, g1) -> conductivity_analyzer X (of_parsed p') q u h = Ok (an', h1) ->
  forall j t t', nth_error (b_dt (an_diff an)) j = Some t -> nth_error (b_dt (an_diff an')) j = Some t' -> t = t' /\ exists v v',
    nth_error (b_n (an_diff an)) j = Some v /\ nth_error (b_n (an_diff an')) j = Some v'
    /\ (Rabs (sqrt v - sqrt v') <= rsum (map Rabs (charges q (length indices))) * (ends (p_drift_indices p) * eps))%R.
Proof. exact @C95_near_charge_proof. Qed.
Print Assumptions C95_mscd_is_stable.
(** A pair of atoms with masses 1 and 3: its centre moves along [s], its length changes by [4 d]. *)
Example C95_example : forall G Seed RS (X : Ext R G Seed RS) (g : G) s d, gentle s -> inside s -> short d -> exists p an,
  molecule_read Ase unit_cell pair_types 1%R 4 3 1 (rocking s d) rocking_params [[1; 2]] [2] p
  /\ well_sampled Ase 4 3 1 (rocking s d) rocking_params [[1; 2]] [2]
  /\ (forall f, centres 3 (a_masses rocking_params) [[1; 2]] [2] (rocking s d) f 0 = line3 (s f))
  /\ diffusion_analyzer X (of_parsed p) (demo_boot 1 "xyz") g = Ok (an, g) /\ b_dt (an_diff an) = [1; 2]%R.
Proof. exact C95_example_proof. Qed.
