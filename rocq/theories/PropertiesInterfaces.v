(** * PropertiesInterfaces: C69 the three interfaces agree, C70 atoms that were not asked for *)
From Verif Require Import Base Spec SpecParser SpecStats SpecFit SpecAnalyzer ModelParser ModelDiffusion ModelHdf ModelAnalyzer
  ProofsTraj ProofsAnalyzer SpecRun SpecSym SpecInterfaces ProofsInterfaces ProofsSpectator.
From Coq Require Import Reals.
Open Scope Z_scope.

(** ** C69

    The same trajectory: fractional coordinates and femtoseconds for pymatgen ([retime 1000]),
    Cartesian coordinates ([cartesian]) and picoseconds for MDAnalysis. Same exception or same
    result, for every selection, stride and spacing. *)
Theorem C69_mdanalysis : forall geo circ t (a : ModelParser.Params R), proper_cells t -> a_sub_sample_atoms a = 1 ->
  both same_measurement (mda_parser geo circ (map cartesian t) a) (pymatgen_parser geo circ t (retime 1000 a)).
Proof. exact C69_mda_proof. Qed.
Print Assumptions C69_mdanalysis.
(** ASE in picoseconds, when every frame is used. *)
Theorem C69_ase_partial : forall geo circ t (a : ModelParser.Params R), a_sub_sample_traj a = 1 ->
  both same_measurement (ase_parser geo circ t a) (pymatgen_parser geo circ t (retime 1000 a)).
Proof. exact C69_ase_every_frame_proof. Qed.
Print Assumptions C69_ase_partial.
(** With sub_sample_traj the ASE interface leaves out the factor for the time (C21): passing the
    product as step_skip makes the two agree. *)
Theorem C69_ase_sub_sample : forall geo circ t (a : ModelParser.Params R),
  both same_measurement (ase_parser geo circ t (with_step_skip (a_step_skip a * a_sub_sample_traj a) a)) (pymatgen_parser geo circ t (retime 1000 a)).
Proof. exact C69_ase_proof. Qed.
Print Assumptions C69_ase_sub_sample.
(** What the analysers are given is equal, also for replicas. *)
Theorem C69_mdanalysis_data : forall geo circ (a : ModelParser.Params R), a_sub_sample_atoms a = 1 ->
  (forall t, proper_cells t ->
     from_frames (fun t => pymatgen_parser geo circ t (retime 1000 a)) (TSingle t) None
     = from_universe (fun t => mda_parser geo circ t a) (TSingle (map cartesian t)) None)
  /\ (forall ts, Forall proper_cells ts ->
     from_frames (fun t => pymatgen_parser geo circ t (retime 1000 a)) (TMulti ts) (Some "identical"%string)
     = from_universe (fun t => mda_parser geo circ t a) (TMulti (map (map cartesian) ts)) (Some "identical"%string)).
Proof. exact C69_mda_data_proof. Qed.
Print Assumptions C69_mdanalysis_data.
Theorem C69_ase_data : forall geo circ (a : ModelParser.Params R) t dtype, a_sub_sample_traj a = 1 ->
  from_frames (fun t => pymatgen_parser geo circ t (retime 1000 a)) t dtype = from_frames (fun t => ase_parser geo circ t a) t dtype.
Proof. exact C69_ase_data_proof. Qed.
Print Assumptions C69_ase_data.
Example C69_example : forall circ, let a := hop_params 1 (PyFloat 1%R) one_step in
  proper_cells (hop_frames 3) /\ exists p, mda_parser geomspace_R circ (map cartesian (hop_frames 3)) a = Ok p
    /\ exists d, nth_error (p_disp_3d p) 0 = Some d /\ length (a_rows d) = 1%nat.
Proof. exact C69_example_proof. Qed.

(** ** C70

    Two trajectories that agree in the selected atoms and in those of the framework. *)
Theorem C70_atoms : forall (parse : parser_of) geo circ (a : ModelParser.Params R) t t' p, In parse parsers ->
  atomic_selection a -> a_sub_sample_atoms a = 1 -> parse geo circ t a = Ok p ->
  Forall2 (same_at (p_indices p ++ p_drift_indices p)%list) t t' ->
  exists p', parse geo circ t' a = Ok p' /\ same_but_dc p p'.
Proof. exact C70_proof. Qed.
Print Assumptions C70_atoms.
Example C70_example : forall circ y, exists p, ase_parser geomspace_R circ (onlookers 3 (fun _ => zero3)) onlooker_params = Ok p
  /\ p_indices p = [0] /\ p_drift_indices p = [1] /\ (exists a1, p_disp_3d p = [a1] /\ length (entries a1) = 3%nat)
  /\ Forall2 (same_at (p_indices p ++ p_drift_indices p)%list) (onlookers 3 (fun _ => zero3)) (onlookers 3 y).
Proof. exact C70_example_proof. Qed.
(** Molecules with a list of framework atoms (numbered from 1 on, as the user gives them). *)
Theorem C70_molecules : forall (parse : parser_of) geo circ (a : ModelParser.Params R) t t' p ms fw, In parse parsers ->
  a_specie a = None -> a_specie_indices a = SIMol ms -> a_framework a = PyList fw -> a_sub_sample_atoms a = 1 ->
  Forall2 (same_at (map (fun z => z - 1) (List.concat ms ++ fw)%list)) t t' ->
  parse geo circ t a = Ok p -> parse geo circ t' a = Ok p.
Proof. exact C70_molecules_proof. Qed.
Print Assumptions C70_molecules.
