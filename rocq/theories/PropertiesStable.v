(** * PropertiesStable: C93 small changes of the positions *)
From Verif Require Import Base Spec SpecParser SpecStats ModelParser ModelDiffusion ModelHdf ModelAnalyzer
  ProofsTraj ProofsStats SpecRun SpecTrue ProofsTrue SpecStable ProofsStable.
From Coq Require Import Reals.
Open Scope Z_scope.

(** ** C93
    Two trajectories of the same atoms, read alike, whose positions are nowhere more than [eps] apart. The reported times
    agree, and the roots of the mean squared displacements differ by at most [2 eps], or [4 eps] when there is a framework
    to refer to. *)
Theorem C93_msd_is_stable : forall G Seed RS (X : Ext R G Seed RS) i circ cell types vol n natoms k x a p u,
  faithful_read i circ cell types vol n natoms k x a p -> 0 < u_sub_sample_dt u -> u_block u = false ->
  forall cell' vol' x' p' eps, faithful_read i circ cell' types vol' n natoms k x' a p' -> (0 <= eps)%R ->
  forall axes g g1 an h h1 an', names (pystr_text (u_dimension u)) axes ->
  near axes n natoms k eps (fun f b => cart cell (x f b)) (fun f b => cart cell' (x' f b)) ->
  diffusion_analyzer X (of_parsed p) u g = Ok (an, g1) -> diffusion_analyzer X (of_parsed p') u h = Ok (an', h1) ->
  forall j t t', nth_error (b_dt (an_diff an)) j = Some t -> nth_error (b_dt (an_diff an')) j = Some t' -> t = t' /\ exists v v',
    nth_error (b_n (an_diff an)) j = Some v /\ nth_error (b_n (an_diff an')) j = Some v' /\ (Rabs (sqrt v - sqrt v') <= ends (p_drift_indices p) * eps)%R.
Proof. exact @C93_msd_proof. Qed.
Print Assumptions C93_msd_is_stable.
(** The collective displacement of [N] atoms: [N] times that. *)
Theorem C93_mstd_is_stable : forall G Seed RS (X : Ext R G Seed RS) i circ cell types vol n natoms k x a p u,
  faithful_read i circ cell types vol n natoms k x a p -> 0 < u_sub_sample_dt u -> u_block u = false ->
  forall cell' vol' x' p' eps, faithful_read i circ cell' types vol' n natoms k x' a p' -> (0 <= eps)%R ->
  forall axes g g1 an h h1 an', names (pystr_text (u_dimension u)) axes ->
  near axes n natoms k eps (fun f b => cart cell (x f b)) (fun f b => cart cell' (x' f b)) ->
  jump_diffusion_analyzer X (of_parsed p) u g = Ok (an, g1) -> jump_diffusion_analyzer X (of_parsed p') u h = Ok (an', h1) ->
  forall j t t', nth_error (b_dt (an_diff an)) j = Some t -> nth_error (b_dt (an_diff an')) j = Some t' -> t = t' /\ exists v v',
    nth_error (b_n (an_diff an)) j = Some v /\ nth_error (b_n (an_diff an')) j = Some v'
    /\ (Rabs (sqrt v - sqrt v') <= INR (length (p_indices p)) * (ends (p_drift_indices p) * eps))%R.
Proof. exact @C93_mstd_proof. Qed.
Print Assumptions C93_mstd_is_stable.
(** The charge displacement: the sum of the absolute charges times that. *)
Theorem C93_mscd_is_stable : forall G Seed RS (X : Ext R G Seed RS) i circ cell types vol n natoms k x a p u,
  faithful_read i circ cell types vol n natoms k x a p -> 0 < u_sub_sample_dt u -> u_block u = false ->
  forall cell' vol' x' p' eps, faithful_read i circ cell' types vol' n natoms k x' a p' -> (0 <= eps)%R ->
  forall q g g1 an h h1 an', (forall l, q = QArray l -> length l = length (p_indices p)) ->
  near all_axes n natoms k eps (fun f b => cart cell (x f b)) (fun f b => cart cell' (x' f b)) ->
  conductivity_analyzer X (of_parsed p) q u g = Ok (an, g1) -> conductivity_analyzer X (of_parsed p') q u h = Ok (an', h1) ->
  forall j t t', nth_error (b_dt (an_diff an)) j = Some t -> nth_error (b_dt (an_diff an')) j = Some t' -> t = t' /\ exists v v',
    nth_error (b_n (an_diff an)) j = Some v /\ nth_error (b_n (an_diff an')) j = Some v'
    /\ (Rabs (sqrt v - sqrt v') <= rsum (map Rabs (charges q (length (p_indices p)))) * (ends (p_drift_indices p) * eps))%R.
Proof. exact @C93_mscd_proof. Qed.
Print Assumptions C93_mscd_is_stable.
(** Atoms that only vibrate within a distance [r] of fixed places: however long the trajectory, the mean squared
    displacement stays below [(2 r)^2], or [(4 r)^2] with a framework. *)
Theorem C93_caged_atoms : forall G Seed RS (X : Ext R G Seed RS) i circ cell types vol n natoms k x a p u,
  faithful_read i circ cell types vol n natoms k x a p -> 0 < u_sub_sample_dt u -> u_block u = false ->
  forall centre r, (0 <= r)%R -> forall axes g g1 an, names (pystr_text (u_dimension u)) axes -> near axes n natoms k r (fun f b => cart cell (x f b)) (fun _ b => centre b) ->
  diffusion_analyzer X (of_parsed p) u g = Ok (an, g1) -> forall j t, nth_error (b_dt (an_diff an)) j = Some t ->
  exists v, nth_error (b_n (an_diff an)) j = Some v /\ (v <= (ends (p_drift_indices p) * r) * (ends (p_drift_indices p) * r))%R.
Proof. exact @C93_caged_msd_proof. Qed.
Print Assumptions C93_caged_atoms.
Theorem C93_caged_atoms_together : forall G Seed RS (X : Ext R G Seed RS) i circ cell types vol n natoms k x a p u,
  faithful_read i circ cell types vol n natoms k x a p -> 0 < u_sub_sample_dt u -> u_block u = false ->
  forall centre r, (0 <= r)%R -> forall axes g g1 an, names (pystr_text (u_dimension u)) axes -> near axes n natoms k r (fun f b => cart cell (x f b)) (fun _ b => centre b) ->
  jump_diffusion_analyzer X (of_parsed p) u g = Ok (an, g1) -> forall j t, nth_error (b_dt (an_diff an)) j = Some t ->
  exists v, nth_error (b_n (an_diff an)) j = Some v
    /\ (v <= (INR (length (p_indices p)) * (ends (p_drift_indices p) * r)) * (INR (length (p_indices p)) * (ends (p_drift_indices p) * r)))%R.
Proof. exact @C93_caged_mstd_proof. Qed.
Print Assumptions C93_caged_atoms_together.
(** Without the condition of small steps (in [faithful_read]) nothing of the kind holds: however small [eps], positions
    [eps] apart may be read as displacements [1 - eps] cells apart. *)
Theorem C93_half_cell_steps_refuted : forall eps, (0 < eps < 1)%R -> exists c c' : nat -> nat -> V3 R,
  near all_axes 2 1 1 eps (fun f b => cart unit_cell (c f b)) (fun f b => cart unit_cell (c' f b))
  /\ exists d d', displacements 1 (frames_of ["Li"]%string 1%R 2 1 c (fun _ => unit_cell)) = Ok d
    /\ displacements 1 (frames_of ["Li"]%string 1%R 2 1 c' (fun _ => unit_cell)) = Ok d'
    /\ arr_entry d 0 1 = Some (mkV ((1 - eps) / 2) 0 0)%R /\ arr_entry d' 0 1 = Some (mkV (- ((1 - eps) / 2)) 0 0)%R.
Proof. exact C93_refuted_proof. Qed.
Print Assumptions C93_half_cell_steps_refuted.
Example C93_example : forall G Seed RS (X : Ext R G Seed RS) circ (g : G) s s' eps, gentle s -> gentle s' -> (forall f, (Rabs (s f - s' f) <= eps)%R) -> exists p p' an an',
  faithful_read Ase circ unit_cell ["Li"; "O"]%string 1%R 4 2 1 (walk s) walk_params p /\ faithful_read Ase circ unit_cell ["Li"; "O"]%string 1%R 4 2 1 (walk s') walk_params p'
  /\ near all_axes 4 2 1 eps (fun f b => cart unit_cell (walk s f b)) (fun f b => cart unit_cell (walk s' f b))
  /\ diffusion_analyzer X (of_parsed p) (demo_boot 1 "xyz") g = Ok (an, g) /\ diffusion_analyzer X (of_parsed p') (demo_boot 1 "xyz") g = Ok (an', g)
  /\ b_dt (an_diff an) = [1; 2]%R /\ b_dt (an_diff an') = [1; 2]%R.
Proof. exact C93_example_proof. Qed.
