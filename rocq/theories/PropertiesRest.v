(** * PropertiesRest: C121, the frame the collective displacements refer to *)
From Verif Require Import Base Spec SpecParser SpecStats SpecRun SpecTrue SpecColl SpecRest ModelParser ModelDiffusion ModelHdf ModelAnalyzer ProofsTraj ProofsStats ProofsTrue ProofsRest.
From Coq Require Import Reals.
Open Scope Z_scope.

(** ** C121 *)
(** If the centre of mass of the followed atoms (masses [mass]) and the framework (atoms of mass [M]) rests, the
    reported MSTD is that of the displacements in this frame, each atom weighted with [1 + N m_i / (K M)] for [N]
    followed and [K] framework atoms: the reports refer to the framework, not to the centre of mass. *)
Theorem C121_mstd : forall G Seed RS (X : Ext R G Seed RS) i circ cell types vol n natoms k x a (p : Parsed R) u (mass : list R) (M : R),
  faithful_read i circ cell types vol n natoms k x a p -> 0 < u_sub_sample_dt u -> u_block u = false ->
  centre_at_rest natoms k (kept n k) (fun f b => cart cell (x f b)) (p_indices p) (p_drift_indices p) mass M ->
  M <> 0%R -> p_drift_indices p <> [] -> length mass = length (p_indices p) ->
  forall axes g an g', names (pystr_text (u_dimension u)) axes ->
  jump_diffusion_analyzer X (of_parsed p) u g = Ok (an, g') -> forall j t, nth_error (b_dt (an_diff an)) j = Some t ->
  exists m, nth_error (p_intervals p) (j * Z.to_nat (u_sub_sample_dt u)) = Some (Z.of_nat m) /\ (0 < m <= kept n k)%nat
    /\ let between := free_between axes (dressed (repeat 1%R (length (p_indices p))) mass (length (p_drift_indices p)) M) natoms k (fun f b => cart cell (x f b)) (p_indices p) in
       nth_error (b_n (an_diff an)) j = Some ((INR (kept n k - m) * over_time (kept n k) m between + between 0%nat (m - 1)%nat) / INR (kept n k - m + 1))%R.
Proof. exact @C121_mstd_proof. Qed.
Print Assumptions C121_mstd.
(** The same for charges [q_i] of total [Q], which become [q_i + Q m_i / (K M)]. *)
Theorem C121_mscd : forall G Seed RS (X : Ext R G Seed RS) i circ cell types vol n natoms k x a (p : Parsed R) u (mass : list R) (M : R),
  faithful_read i circ cell types vol n natoms k x a p -> 0 < u_sub_sample_dt u -> u_block u = false ->
  centre_at_rest natoms k (kept n k) (fun f b => cart cell (x f b)) (p_indices p) (p_drift_indices p) mass M ->
  M <> 0%R -> p_drift_indices p <> [] -> length mass = length (p_indices p) ->
  forall q g an g', (forall l, q = QArray l -> length l = length (p_indices p)) ->
  conductivity_analyzer X (of_parsed p) q u g = Ok (an, g') -> forall j t, nth_error (b_dt (an_diff an)) j = Some t ->
  exists m, nth_error (p_intervals p) (j * Z.to_nat (u_sub_sample_dt u)) = Some (Z.of_nat m) /\ (0 < m <= kept n k)%nat
    /\ let between := free_between all_axes (dressed (charges q (length (p_indices p))) mass (length (p_drift_indices p)) M) natoms k (fun f b => cart cell (x f b)) (p_indices p) in
       nth_error (b_n (an_diff an)) j = Some ((INR (kept n k - m) * over_time (kept n k) m between + between 0%nat (m - 1)%nat) / INR (kept n k - m + 1))%R.
Proof. exact @C121_mscd_proof. Qed.
Print Assumptions C121_mscd.
(** For followed atoms of equal masses [mu] and charges [z] all of this is one factor: the square of
    [z (1 + N mu / (K M))], with [N mu] the mass of the followed atoms and [K M] that of the framework. *)
Theorem C121_equal_masses : forall axes natoms k pos idx (z mu : R) K (M : R) f g,
  free_between axes (dressed (repeat z (length idx)) (repeat mu (length idx)) K M) natoms k pos idx f g
  = ((z * (1 + INR (length idx) * mu / (INR K * M))) * (z * (1 + INR (length idx) * mu / (INR K * M))) * total_between axes natoms k pos idx [] f g)%R.
Proof. exact C121_equal_masses_proof. Qed.
Print Assumptions C121_equal_masses.
(** So the report is not that of the displacements in the frame of the centre of mass: a Li atom moving against an O
    atom of twice its mass gives 9/4 of it. *)
Theorem C121_centre_of_mass_refuted : forall G Seed RS (X : Ext R G Seed RS) circ (g : G), exists x p an,
  faithful_read Ase circ unit_cell ["Li"; "O"]%string 1%R 4 2 1 x walk_params p
  /\ centre_at_rest 2 1 4 (fun f b => cart unit_cell (x f b)) (p_indices p) (p_drift_indices p) [1%R] 2%R
  /\ jump_diffusion_analyzer X (of_parsed p) (demo_boot 1 "xyz") g = Ok (an, g)
  /\ nth_error (p_intervals p) 0 = Some 1 /\ nth_error (b_dt (an_diff an)) 0 = Some 1%R
  /\ nth_error (b_n (an_diff an)) 0 = Some (27 / 1600)%R
  /\ (let between := free_between all_axes [1%R] 2 1 (fun f b => cart unit_cell (x f b)) (p_indices p) in
      (INR (4 - 1) * over_time 4 1 between + between 0%nat (1 - 1)%nat) / INR (4 - 1 + 1) = 3 / 400)%R.
Proof. exact C121_refuted_proof. Qed.
Print Assumptions C121_centre_of_mass_refuted.
(** This run, in which both atoms move, meets the hypotheses. *)
Example C121_example : forall G Seed RS (X : Ext R G Seed RS) circ (g : G), exists x p an cn,
  faithful_read Ase circ unit_cell ["Li"; "O"]%string 1%R 4 2 1 x walk_params p
  /\ centre_at_rest 2 1 4 (fun f b => cart unit_cell (x f b)) (p_indices p) (p_drift_indices p) [1%R] 2%R
  /\ p_drift_indices p <> [] /\ length [1%R] = length (p_indices p)
  /\ jump_diffusion_analyzer X (of_parsed p) (demo_boot 1 "xyz") g = Ok (an, g) /\ conductivity_analyzer X (of_parsed p) (QScalar 1%R) (demo_boot 1 "xyz") g = Ok (cn, g)
  /\ nth_error (b_dt (an_diff an)) 0 = Some 1%R /\ nth_error (b_dt (an_diff cn)) 0 = Some 1%R
  /\ x 3%nat 0%nat <> x 0%nat 0%nat /\ x 3%nat 1%nat <> x 0%nat 1%nat.
Proof. exact C121_example_proof. Qed.
Print Assumptions C121_example.
