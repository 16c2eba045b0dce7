(** * PropertiesOrder: C64 common motion, C65 order of the atoms, C66 the triclinic warning *)
From Verif Require Import Base Spec SpecParser SpecStats SpecFit ModelParser ModelDiffusion ModelHdf ModelAnalyzer
  ProofsTraj ProofsOrder SpecRun SpecSym SpecOrder.
From Coq Require Import Reals Lra Permutation.
Open Scope Z_scope.

(** ** C64

    Every atom moves by [x] in one trajectory and by [x] plus a motion [u] common to all atoms in
    the other; [img] and [img'] are arbitrary periodic images. In both, atoms move by less than half
    a cell between used frames. With a framework the two parses are the same, field by field. *)
Theorem C64_ase : forall circ cell types vol n natoms k x u (img img' : nat -> nat -> V3 Z) (a : Params R),
  cell_volume cell <> 0%R -> (0 < k)%nat -> small_steps n natoms k x -> small_steps n natoms k (fun f i => plus3 (x f i) (u f)) ->
  atomic_selection a -> a_sub_sample_traj a = Z.of_nat k -> forall p,
  ase_parser geomspace_R circ (frames_of types vol n natoms (fun f i => plus3 (x f i) (ivec (img f i))) (fun _ => cell)) a = Ok p ->
  p_drift_indices p <> [] ->
  ase_parser geomspace_R circ (frames_of types vol n natoms (fun f i => plus3 (plus3 (x f i) (u f)) (ivec (img' f i))) (fun _ => cell)) a = Ok p.
Proof. exact C64_ase_proof. Qed.
Print Assumptions C64_ase.
Theorem C64_pymatgen : forall circ cell types vol n natoms k x u (img img' : nat -> nat -> V3 Z) (a : Params R),
  cell_volume cell <> 0%R -> (0 < k)%nat -> small_steps n natoms k x -> small_steps n natoms k (fun f i => plus3 (x f i) (u f)) ->
  atomic_selection a -> a_sub_sample_traj a = Z.of_nat k -> forall p,
  pymatgen_parser geomspace_R circ (frames_of types vol n natoms (fun f i => plus3 (x f i) (ivec (img f i))) (fun _ => cell)) a = Ok p ->
  p_drift_indices p <> [] ->
  pymatgen_parser geomspace_R circ (frames_of types vol n natoms (fun f i => plus3 (plus3 (x f i) (u f)) (ivec (img' f i))) (fun _ => cell)) a = Ok p.
Proof. exact C64_pymatgen_proof. Qed.
Print Assumptions C64_pymatgen.
Theorem C64_mdanalysis : forall circ cell types vol n natoms k x u (img img' : nat -> nat -> V3 Z) (a : Params R),
  cell_volume cell <> 0%R -> (0 < k)%nat -> small_steps n natoms k x -> small_steps n natoms k (fun f i => plus3 (x f i) (u f)) ->
  atomic_selection a -> a_sub_sample_traj a = Z.of_nat k -> a_sub_sample_atoms a = 1 -> forall p,
  mda_parser geomspace_R circ (frames_of types vol n natoms (fun f i => cart cell (plus3 (x f i) (ivec (img f i)))) (fun _ => cell)) a = Ok p ->
  p_drift_indices p <> [] ->
  mda_parser geomspace_R circ (frames_of types vol n natoms (fun f i => cart cell (plus3 (plus3 (x f i) (u f)) (ivec (img' f i)))) (fun _ => cell)) a = Ok p.
Proof. exact C64_mda_proof. Qed.
Print Assumptions C64_mdanalysis.
Example C64_example : forall circ, small_steps 3 2 1 hop /\ small_steps 3 2 1 (fun f i => plus3 (hop f i) (swaying f))
  /\ let a := hop_params 1 (PyFloat 1%R) (mkOptions (Some 1) (Some 3) 100 "linear" "multi-origin" 8 8)%R in
     exists p, ase_parser geomspace_R circ (hop_frames 3) a = Ok p /\ p_drift_indices p = [1]
       /\ ase_parser geomspace_R circ (frames_of ["Li"; "O"]%string 1%R 3 2 (fun f i => plus3 (hop f i) (swaying f)) (fun _ => unit_cell)) a = Ok p.
Proof. exact C64_example_proof. Qed.

(** ** C65

    The atoms of the trajectory in another order, species and positions alike ([renumbering],
    [renumbered_types]), atoms selected by species: the parse is the same up to the order of the
    atoms ([same_parse]). Cells may vary. *)
Theorem C65_ase : forall circ types types' vol n natoms k c l s (a : Params R) specie,
  (0 < k)%nat -> length types = natoms -> renumbering natoms s -> renumbered_types s types types' ->
  a_specie a = Some specie -> (forall fw, a_framework a <> PyList fw) -> a_sub_sample_traj a = Z.of_nat k -> forall p,
  ase_parser geomspace_R circ (frames_of types vol n natoms c l) a = Ok p ->
  exists p', ase_parser geomspace_R circ (frames_of types' vol n natoms (fun f i => c f (s i)) l) a = Ok p' /\ same_parse p p'.
Proof. exact C65_ase_proof. Qed.
Print Assumptions C65_ase.
Theorem C65_pymatgen : forall circ types types' vol n natoms k c l s (a : Params R) specie,
  (0 < k)%nat -> length types = natoms -> renumbering natoms s -> renumbered_types s types types' ->
  a_specie a = Some specie -> (forall fw, a_framework a <> PyList fw) -> a_sub_sample_traj a = Z.of_nat k -> forall p,
  pymatgen_parser geomspace_R circ (frames_of types vol n natoms c l) a = Ok p ->
  exists p', pymatgen_parser geomspace_R circ (frames_of types' vol n natoms (fun f i => c f (s i)) l) a = Ok p' /\ same_parse p p'.
Proof. exact C65_pymatgen_proof. Qed.
Print Assumptions C65_pymatgen.
Theorem C65_mdanalysis : forall circ types types' vol n natoms k c l s (a : Params R) specie p,
  (0 < k)%nat -> length types = natoms -> renumbering natoms s -> renumbered_types s types types' ->
  a_specie a = Some specie -> (forall fw, a_framework a <> PyList fw) -> a_sub_sample_traj a = Z.of_nat k -> a_sub_sample_atoms a = 1 ->
  mda_parser geomspace_R circ (frames_of types vol n natoms c l) a = Ok p ->
  exists p', mda_parser geomspace_R circ (frames_of types' vol n natoms (fun f i => c f (s i)) l) a = Ok p' /\ same_parse p p'.
Proof. exact C65_mda_proof. Qed.
Print Assumptions C65_mdanalysis.
(** Atoms selected by a flat list of indices, given in another order. *)
Theorem C65_indices : forall circ frames (a : Params R) l l' parse p, In parse [ase_parser; pymatgen_parser; mda_parser] ->
  a_specie a = None -> a_specie_indices a = SIFlat l -> Permutation l l' ->
  parse geomspace_R circ frames a = Ok p ->
  exists p', parse geomspace_R circ frames (with_indices a l') = Ok p' /\ same_parse p p'.
Proof. exact C65_indices_proof. Qed.
Print Assumptions C65_indices.
(** Analysing data that differ in the order of the atoms only: all statistics are equal. *)
Theorem C65_diffusion : forall {G Seed RS} (X : Ext R G Seed RS) d d' u g a g',
  u_bootstrap u = false -> u_block u = false -> same_data d d' -> diffusion_analyzer X d u g = Ok (a, g') ->
  exists a', diffusion_analyzer X d' u g = Ok (a', g') /\ same_analyzer a a'.
Proof. exact @C65_diffusion_proof. Qed.
Print Assumptions C65_diffusion.
Theorem C65_jump_diffusion : forall {G Seed RS} (X : Ext R G Seed RS) d d' u g a g',
  u_bootstrap u = false -> u_block u = false -> same_data d d' -> jump_diffusion_analyzer X d u g = Ok (a, g') ->
  exists a', jump_diffusion_analyzer X d' u g = Ok (a', g') /\ same_analyzer a a'.
Proof. exact @C65_jump_proof. Qed.
Print Assumptions C65_jump_diffusion.
Theorem C65_conductivity : forall {G Seed RS} (X : Ext R G Seed RS) d d' q q' u g a g',
  u_bootstrap u = false -> u_block u = false -> same_data d d' ->
  one_number_of_atoms (an_disp_3d d) -> Forall2 (same_charges q q') (an_disp_3d d) (an_disp_3d d') ->
  conductivity_analyzer X d q u g = Ok (a, g') ->
  exists a', conductivity_analyzer X d' q' u g = Ok (a', g') /\ same_analyzer a a'.
Proof. exact @C65_conductivity_proof. Qed.
Print Assumptions C65_conductivity.
(** With resampling on, the resampled values differ but the reported statistics do not. *)
Theorem C65_bootstrap : forall {G Seed RS} (X : Ext R G Seed RS) u dts disps disps' n_o g b g1 h b' h1,
  u_block u = false -> Forall2 same_rows disps disps' ->
  msd_bootstrap X (with_bootstrap u true) dts disps n_o g = Ok (b, g1) ->
  msd_bootstrap X (with_bootstrap u true) dts disps' n_o h = Ok (b', h1) ->
  same_boot (forget_boot b) (forget_boot b').
Proof. exact @C65_bootstrap_proof. Qed.
Print Assumptions C65_bootstrap.
(** Fits: the same samples, exceptions and use of the generator. *)
Theorem C65_fits : forall {G Seed RS} (X : Ext R G Seed RS) b b' g (c : call (RS := RS)),
  same_boot b b' -> same_run (run_call X b g c) (run_call X b' g c).
Proof. exact @C65_fits_proof. Qed.
Print Assumptions C65_fits.
Example C65_example : forall circ, renumbering 2 swap /\ renumbered_types swap ["Li"; "O"]%string ["O"; "Li"]%string
  /\ let a := hop_params 1 (PyFloat 1%R) (mkOptions (Some 1) (Some 3) 100 "linear" "multi-origin" 8 8)%R in
     exists p p', ase_parser geomspace_R circ (hop_frames 3) a = Ok p /\ p_indices p = [0]
       /\ ase_parser geomspace_R circ (frames_of ["O"; "Li"]%string 1%R 3 2 (fun f i => hop f (swap i)) (fun _ => unit_cell)) a = Ok p'
       /\ p_indices p' = [1] /\ same_parse p p'.
Proof. exact C65_example_proof. Qed.

(** ** C66

    [get_disp_warns latt]: the warning of Parser.get_disp for the cells [latt] the reader returned. *)
Theorem C66_ase_pymatgen : forall (frames : list (Frame R)) k st coords latt, 0 < k ->
  get_structure_coords_latt frames k = Ok (st, coords, latt) ->
  (get_disp_warns latt = true <-> exists i f, nth_error frames (i * Z.to_nat k) = Some f /\ ~ orthorhombic (f_cell f)).
Proof. exact C66_proof. Qed.
Print Assumptions C66_ase_pymatgen.
Theorem C66_mdanalysis : forall (frames : list (Frame R)) ka k st coords latt, 0 < k ->
  get_structure_coords_latt_mda frames ka k = Ok (st, coords, latt) ->
  (get_disp_warns latt = true <-> exists i f, nth_error frames (i * Z.to_nat k) = Some f /\ ~ orthorhombic (f_cell f)).
Proof. exact C66_mda_proof. Qed.
Print Assumptions C66_mdanalysis.
Example C66_example : orthorhombic unit_cell /\ ~ orthorhombic (mkM (mkV 1 0 0) (mkV (1/2) 1 0) (mkV 0 0 1))%R.
Proof. exact C66_example_proof. Qed.
