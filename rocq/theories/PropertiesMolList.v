(** * PropertiesMolList: C94 one set of molecules written down in different ways

    [parsers] are the three parsers; [circular_mean_R] is the code's circular mean over the reals. *)
From Verif Require Import Base ModelParser Spec SpecParser SpecMol SpecRun SpecOrder SpecMolList ProofsTraj ProofsMolTraj ProofsMolList.
From Coq Require Import Reals Permutation.
Open Scope Z_scope.

(** Molecules listed in another order: the same parse up to the order of the series. *)
Theorem C94_order_of_molecules : forall (parse : parser_of) geo circ frames (a : Params R) l l' p, In parse parsers ->
  a_specie a = None -> a_specie_indices a = SIMol l -> Permutation l l' -> parse geo circ frames a = Ok p ->
  exists p', parse geo circ frames (with_selection a (SIMol l') (a_masses a)) = Ok p' /\ same_parse p p'.
Proof. exact C94_molecules_proof. Qed.
Print Assumptions C94_order_of_molecules.

(** Atoms within the molecules listed in another order, each with its own mass: the same parse. *)
Theorem C94_order_of_atoms : forall (parse : parser_of) geo frames (a : Params R) l l' w' p, In parse parsers ->
  a_specie a = None -> a_specie_indices a = SIMol l -> Forall (fun m => m <> []) l -> Forall2 (same_molecule (a_masses a) w') l l' ->
  parse geo circular_mean_R frames a = Ok p -> parse geo circular_mean_R frames (with_selection a (SIMol l') w') = Ok p.
Proof. exact C94_atoms_proof. Qed.
Print Assumptions C94_order_of_atoms.

(** Masses in another unit. *)
Theorem C94_mass_units : forall (parse : parser_of) geo frames (a : Params R) l ws c p, In parse parsers ->
  a_specie a = None -> a_specie_indices a = SIMol l -> Forall (fun m => m <> []) l -> a_masses a = Some ws -> c <> 0%R ->
  parse geo circular_mean_R frames a = Ok p -> parse geo circular_mean_R frames (with_selection a (SIMol l) (Some (map (Rmult c) ws))) = Ok p.
Proof. exact C94_units_proof. Qed.
Print Assumptions C94_mass_units.

(** No masses is the same as equal masses. *)
Theorem C94_equal_masses : forall (parse : parser_of) geo frames (a : Params R) l c k p, In parse parsers ->
  a_specie a = None -> a_specie_indices a = SIMol l -> Forall (fun m => length m = S k) l -> a_masses a = None -> c <> 0%R ->
  parse geo circular_mean_R frames a = Ok p -> parse geo circular_mean_R frames (with_selection a (SIMol l) (Some (repeat c (S k)))) = Ok p.
Proof. exact C94_equal_proof. Qed.
Print Assumptions C94_equal_masses.

(** Molecules of one atom are atoms (cell fixed, framework: all other atoms). *)
Theorem C94_single_atoms : forall (parse : parser_of) geo frames (a : Params R) l cell p, In parse parsers ->
  a_specie a = None -> a_specie_indices a = SIMol (one_each l) -> (forall fw, a_framework a <> PyList fw) ->
  Forall (fun f => f_cell f = cell) frames -> parse geo circular_mean_R frames a = Ok p ->
  exists p', parse geo circular_mean_R frames (with_selection a (SIFlat l) None) = Ok p' /\ same_results p p'.
Proof. exact C94_single_proof. Qed.
Print Assumptions C94_single_atoms.

(** Two molecules of one atom each, one of which moves. *)
Example C94_example : exists p arr p' p'', ase_parser geomspace_R circular_mean_R strolling_frames strolling_params = Ok p
  /\ p_disp_3d p = [arr] /\ arr_entry arr 0 2 = Some (line3 (1 / 10)) /\ arr_entry arr 1 2 = Some (line3 0)
  /\ ase_parser geomspace_R circular_mean_R strolling_frames (with_selection strolling_params (SIMol [[2]; [1]]) None) = Ok p' /\ same_parse p p'
  /\ ase_parser geomspace_R circular_mean_R strolling_frames (with_selection strolling_params (SIFlat [0; 1]) None) = Ok p'' /\ same_results p p''.
Proof. exact C94_example_proof. Qed.
(** A molecule with masses 1 and 3, written from either end. *)
Example C94_example_masses : exists p,
  let frames := frames_of pair_types 1%R 3 3 (fun f i => plus3 (crossing f i) (ivec (crossing_img f i))) (fun _ => unit_cell) in
  ase_parser geomspace_R circular_mean_R frames (pair_params (Some [1; 3]%R)) = Ok p /\ p_disp_3d p <> []
  /\ ase_parser geomspace_R circular_mean_R frames (with_selection (pair_params (Some [1; 3]%R)) (SIMol [[2; 1]]) (Some [3; 1]%R)) = Ok p.
Proof. exact C94_example_masses_proof. Qed.
