(** * PropertiesTraj: C07, C17, C18, C21, C22, C52 (whole trajectories through the parsers)

    A trajectory is [frames_of types vol n natoms pos cell]: [n] frames of [natoms] atoms. For ASE
    and pymatgen the positions are fractional, for MDAnalysis Cartesian. [x f a] is the true
    (unwrapped) fractional position; what the parser sees is moved by arbitrary whole cells
    [img f a]. [geomspace_R] and [circ] are only used by logarithmic spacing and by molecules. *)
From Verif Require Import Base Spec ModelParser SpecParser Lemmas ProofsDisp ProofsParser ProofsTraj SpecRun.
From Coq Require Import Reals Lra Lia Sorting.
Open Scope Z_scope.

(** ** C07: every observation spans its interval

    False of the code: the first observation of an interval of one frame is zero although every
    true displacement over one frame is 1/10. *)
Theorem C07_observations_span_interval_refuted : forall circ, exists p arr,
  ase_parser geomspace_R circ (hop_frames 3)
    (hop_params 1 (PyFloat 1%R) (mkOptions (Some 1) (Some 3) 100 "linear" "multi-origin" 8 8)%R) = Ok p
  /\ p_indices p = [0] /\ p_drift_indices p = [1]
  /\ nth_error (p_intervals p) 0 = Some 1 /\ nth_error (p_disp_3d p) 0 = Some arr
  /\ arr_entry arr 0 0 = Some zero3
  /\ forall f, relative_displacement 2 (fun f a => cart unit_cell (hop f a)) [1] 0 f (f + 1)
               = (mkV (1/10) 0 0)%R.
Proof. exact C07_refuted_proof. Qed.
Print Assumptions C07_observations_span_interval_refuted.

(** What is true (fixed cell, true steps below half a cell): all observations but the first span
    exactly m used frames, the first one spans m-1; displacements are relative to the framework.
    Missing: the first observation. *)
Theorem C07_ase_partial :
  forall circ cell types vol n natoms k x (img : nat -> nat -> V3 Z) (a : Params R) p,
  cell_volume cell <> 0%R -> (0 < k)%nat -> small_steps n natoms k x ->
  atomic_selection a -> a_sub_sample_traj a = Z.of_nat k ->
  let ts := pynum_val (a_time_step a) in
  sensible (kept n k) (IZR (a_step_skip a) * ts) (a_opts a) -> o_sampling (a_opts a) = "multi-origin"%string ->
  ase_parser geomspace_R circ
    (frames_of types vol n natoms (fun f a => plus3 (x f a) (ivec (img f a))) (fun _ => cell)) a = Ok p ->
  Forall (valid_site natoms) (p_indices p) -> Forall (valid_site natoms) (p_drift_indices p) ->
  forall q arr, nth_error (p_disp_3d p) q = Some arr -> exists m : nat, (0 < m <= kept n k)%nat
     /\ nth_error (p_intervals p) q = Some (Z.of_nat m)
     /\ nth_error (p_delta_t p) q = Some (INR m * ts * IZR (a_step_skip a))%R
     /\ reports_interval natoms (kept n k) k (fun f a => cart cell (x f a)) (p_indices p) (p_drift_indices p) m arr.
Proof. exact C07_ase_proof. Qed.
Print Assumptions C07_ase_partial.

Theorem C07_pymatgen_partial :
  forall circ cell types vol n natoms k x (img : nat -> nat -> V3 Z) (a : Params R) p,
  cell_volume cell <> 0%R -> (0 < k)%nat -> small_steps n natoms k x ->
  atomic_selection a -> a_sub_sample_traj a = Z.of_nat k ->
  let ts := pynum_val (a_time_step a) in
  sensible (kept n k) (IZR (a_step_skip a * Z.of_nat k) * ts) (a_opts a) ->
  o_sampling (a_opts a) = "multi-origin"%string ->
  pymatgen_parser geomspace_R circ
    (frames_of types vol n natoms (fun f a => plus3 (x f a) (ivec (img f a))) (fun _ => cell)) a = Ok p ->
  Forall (valid_site natoms) (p_indices p) -> Forall (valid_site natoms) (p_drift_indices p) ->
  forall q arr, nth_error (p_disp_3d p) q = Some arr -> exists m : nat, (0 < m <= kept n k)%nat
     /\ nth_error (p_intervals p) q = Some (Z.of_nat m)
     /\ nth_error (p_delta_t p) q = Some (INR m * ts * IZR (a_step_skip a) * INR k / 1000)%R
     /\ reports_interval natoms (kept n k) k (fun f a => cart cell (x f a)) (p_indices p) (p_drift_indices p) m arr.
Proof. exact C07_pymatgen_proof. Qed.
Print Assumptions C07_pymatgen_partial.

Theorem C07_mdanalysis_partial :
  forall circ cell types vol n natoms ka k x (img : nat -> nat -> V3 Z) (a : Params R) p,
  cell_volume cell <> 0%R -> (0 < ka)%nat -> (0 < k)%nat -> length types = natoms ->
  small_steps n natoms k x ->
  atomic_selection a -> a_sub_sample_traj a = Z.of_nat k -> a_sub_sample_atoms a = Z.of_nat ka ->
  let ts := pynum_val (a_time_step a) in
  sensible (kept n k) (IZR (a_step_skip a * Z.of_nat k) * ts) (a_opts a) ->
  o_sampling (a_opts a) = "multi-origin"%string ->
  mda_parser geomspace_R circ
    (frames_of types vol n natoms (fun f a => cart cell (plus3 (x f a) (ivec (img f a)))) (fun _ => cell)) a = Ok p ->
  let N := kept natoms ka in
  Forall (valid_site N) (p_indices p) -> Forall (valid_site N) (p_drift_indices p) ->
  forall q arr, nth_error (p_disp_3d p) q = Some arr -> exists m : nat, (0 < m <= kept n k)%nat
     /\ nth_error (p_intervals p) q = Some (Z.of_nat m)
     /\ nth_error (p_delta_t p) q = Some (INR m * ts * IZR (a_step_skip a) * INR k)%R
     /\ reports_interval N (kept n k) k (fun f a => cart cell (x f (a * ka)%nat)) (p_indices p) (p_drift_indices p) m arr.
Proof. exact C07_mda_proof. Qed.
Print Assumptions C07_mdanalysis_partial.

(** The trajectory of the refutation meets the hypotheses (for every use of one frame in k <= 4). *)
Example C07_example : forall circ, exists p,
  ase_parser geomspace_R circ (hop_frames 3)
    (hop_params 1 (PyFloat 1%R) (mkOptions (Some 1) (Some 3) 100 "linear" "multi-origin" 8 8)%R) = Ok p
  /\ cell_volume unit_cell <> 0%R /\ small_steps 3 2 1 hop
  /\ atomic_selection (hop_params 1 (PyFloat 1%R) (mkOptions (Some 1) (Some 3) 100 "linear" "multi-origin" 8 8)%R)
  /\ sensible (kept 3 1) (IZR 1 * 1) (mkOptions (Some 1) (Some 3) 100 "linear" "multi-origin" 8 8)%R
  /\ Forall (valid_site 2) (p_indices p) /\ Forall (valid_site 2) (p_drift_indices p).
Proof.
  intros circ. destruct (C07_refuted_proof circ) as (p & arr & H & Hi & Hd & _). exists p.
  split; [exact H|]. split; [exact unit_cell_volume|]. split; [apply hop_small; lia|].
  split; [left; discriminate|]. rewrite Hi, Hd. split; [|split; repeat constructor; cbn; lia].
  constructor; unfold min_time, max_time; cbn; try lra; try lia. now left.
Qed.

(** ** C17: species selection *)
Theorem C17_selection_function : forall types specie,
  (forall name, In name types -> ~ In name specie) /\ (forall fw, get_indices types specie fw = Raise ValueError)
  \/ exists I D, lists_atoms types (fun s => In s specie) I /\ I <> []
     /\ lists_atoms types (fun s => ~ In s specie) D
     /\ forall fw, get_indices types specie fw = Ok (I, match fw with PyList l => l | _ => D end).
Proof. exact C17_get_indices_proof. Qed.
Print Assumptions C17_selection_function.
Example C17_example : get_indices ["Li"; "O"; "Li"; "P"]%string ["Li"]%string PyNone = Ok ([0; 2], [1; 3])
  /\ get_indices ["Li"; "O"]%string ["Na"]%string PyNone = Raise ValueError.
Proof. split; reflexivity. Qed.

Theorem C17_ase_and_pymatgen :
  forall circ types vol n natoms (c : nat -> nat -> V3 R) l (a : Params R) sp p,
  a_specie a = Some sp -> 0 < a_sub_sample_traj a ->
  (ase_parser geomspace_R circ (frames_of types vol n natoms c l) a = Ok p
   \/ pymatgen_parser geomspace_R circ (frames_of types vol n natoms c l) a = Ok p) ->
  species_selection types sp (a_framework a) (p_indices p) (p_drift_indices p).
Proof. exact C17_ase_proof. Qed.
Print Assumptions C17_ase_and_pymatgen.

Theorem C17_mdanalysis :
  forall circ types vol n natoms (c : nat -> nat -> V3 R) l (a : Params R) sp p,
  a_specie a = Some sp -> 0 < a_sub_sample_traj a -> 0 < a_sub_sample_atoms a ->
  mda_parser geomspace_R circ (frames_of types vol n natoms c l) a = Ok p ->
  exists types', sub_sample (Z.to_nat (a_sub_sample_atoms a)) types types' /\
  species_selection types' sp (a_framework a) (p_indices p) (p_drift_indices p).
Proof. exact C17_mda_proof. Qed.
Print Assumptions C17_mdanalysis.

(** ** C18: explicit indices

    True without a framework_indices list. *)
Theorem C18_specie_indices_partial :
  forall circ types vol n natoms (c : nat -> nat -> V3 R) lat (a : Params R) l p,
  a_specie a = None -> a_specie_indices a = SIFlat l -> (forall f, a_framework a <> PyList f) ->
  0 < a_sub_sample_traj a ->
  (ase_parser geomspace_R circ (frames_of types vol n natoms c lat) a = Ok p
   \/ pymatgen_parser geomspace_R circ (frames_of types vol n natoms c lat) a = Ok p) ->
  p_indices p = l /\ lists_others (length types) l (p_drift_indices p).
Proof. exact C18_ase_proof. Qed.
Print Assumptions C18_specie_indices_partial.
Theorem C18_specie_indices_mdanalysis_partial :
  forall circ types vol n natoms (c : nat -> nat -> V3 R) lat (a : Params R) l p,
  a_specie a = None -> a_specie_indices a = SIFlat l -> (forall f, a_framework a <> PyList f) ->
  0 < a_sub_sample_traj a -> 
  mda_parser geomspace_R circ (frames_of types vol n natoms c lat) a = Ok p ->
  a_sub_sample_atoms a = 1 /\ p_indices p = l /\ lists_others (length types) l (p_drift_indices p).
Proof. exact C18_mda_proof. Qed.
Print Assumptions C18_specie_indices_mdanalysis_partial.
Example C18_example : lists_others 4 [2; 0] [1; 3].
Proof. apply (complement_spec 4 [2;0]). Qed.

(** With framework_indices the selection raises AttributeError whenever some atom is not selected
    (so no framework can be given at all), whatever the list. *)
Theorem C18_framework_indices_always_fail :
  forall circ st (coords : list (list (V3 R))) a l f,
  a_specie a = None -> a_specie_indices a = SIFlat l -> a_framework a = PyList f -> l <> [] ->
  (exists i, 0 <= i < Z.of_nat (length (s_types st)) /\ ~ In i l) ->
  choose_atoms circ st coords a = Raise AttributeError.
Proof. exact C18_framework_fails_proof. Qed.
Print Assumptions C18_framework_indices_always_fail.
Theorem C18_framework_indices_refuted : forall circ,
  ase_parser geomspace_R circ (hop_frames 3)
    (mkParams None (PyFloat 1%R) 1 1 1 (mkOptions (Some 1) (Some 3) 100 "linear" "multi-origin" 8 8)%R
       (SIFlat [0]) None (PyList [1])) = Raise AttributeError.
Proof. exact C18_refuted_proof. Qed.
Print Assumptions C18_framework_indices_refuted.

(** ** C21: reported times account for sub-sampling. [frame_time ss ts f g] is the simulated time
    between saved frames f and g; see C07 for the frames an observation spans. *)
Theorem C21_mdanalysis :
  forall circ cell types vol n natoms ka k x (img : nat -> nat -> V3 Z) (a : Params R) p,
  cell_volume cell <> 0%R -> (0 < ka)%nat -> (0 < k)%nat -> length types = natoms ->
  small_steps n natoms k x ->
  atomic_selection a -> a_sub_sample_traj a = Z.of_nat k -> a_sub_sample_atoms a = Z.of_nat ka ->
  let ts := pynum_val (a_time_step a) in
  sensible (kept n k) (IZR (a_step_skip a * Z.of_nat k) * ts) (a_opts a) ->
  o_sampling (a_opts a) = "multi-origin"%string ->
  mda_parser geomspace_R circ
    (frames_of types vol n natoms (fun f a => cart cell (plus3 (x f a) (ivec (img f a)))) (fun _ => cell)) a = Ok p ->
  let N := kept natoms ka in
  Forall (valid_site N) (p_indices p) -> Forall (valid_site N) (p_drift_indices p) ->
  forall q arr, nth_error (p_disp_3d p) q = Some arr -> exists m : nat,
     reports_interval N (kept n k) k (fun f a => cart cell (x f (a * ka)%nat)) (p_indices p) (p_drift_indices p) m arr
     /\ forall j, nth_error (p_delta_t p) q = Some (frame_time (a_step_skip a) ts (j * k) ((j + m) * k)).
Proof. exact C21_mda_proof. Qed.
Print Assumptions C21_mdanalysis.

Theorem C21_pymatgen :
  forall circ cell types vol n natoms k x (img : nat -> nat -> V3 Z) (a : Params R) p,
  cell_volume cell <> 0%R -> (0 < k)%nat -> small_steps n natoms k x ->
  atomic_selection a -> a_sub_sample_traj a = Z.of_nat k ->
  let ts := pynum_val (a_time_step a) in
  sensible (kept n k) (IZR (a_step_skip a * Z.of_nat k) * ts) (a_opts a) ->
  o_sampling (a_opts a) = "multi-origin"%string ->
  pymatgen_parser geomspace_R circ
    (frames_of types vol n natoms (fun f a => plus3 (x f a) (ivec (img f a))) (fun _ => cell)) a = Ok p ->
  Forall (valid_site natoms) (p_indices p) -> Forall (valid_site natoms) (p_drift_indices p) ->
  forall q arr, nth_error (p_disp_3d p) q = Some arr -> exists m : nat,
     reports_interval natoms (kept n k) k (fun f a => cart cell (x f a)) (p_indices p) (p_drift_indices p) m arr
     /\ forall j, nth_error (p_delta_t p) q = Some (frame_time (a_step_skip a) ts (j * k) ((j + m) * k) / 1000)%R.
Proof. exact C21_pymatgen_proof. Qed.
Print Assumptions C21_pymatgen.

(** ASE: false when frames are skipped (the reported time is too short by the factor k)... *)
Theorem C21_ase_refuted : forall circ, exists p arr,
  ase_parser geomspace_R circ (hop_frames 5)
    (hop_params 2 (PyFloat 1%R) (mkOptions (Some 1) (Some 3) 100 "linear" "multi-origin" 8 8)%R) = Ok p
  /\ nth_error (p_disp_3d p) 0 = Some arr
  /\ reports_interval 2 3 2 (fun f a => cart unit_cell (hop f a)) [0] [1] 1 arr
  /\ nth_error (p_delta_t p) 0 = Some 1%R
  /\ forall j, frame_time 1 1 (j * 2) ((j + 1) * 2) = 2%R.
Proof. exact C21_ase_refuted_proof. Qed.
Print Assumptions C21_ase_refuted.

(** ... for every run: the reported time is the true one divided by k. So right iff k = 1. *)
Theorem C21_ase_partial :
  forall circ cell types vol n natoms k x (img : nat -> nat -> V3 Z) (a : Params R) p,
  cell_volume cell <> 0%R -> (0 < k)%nat -> small_steps n natoms k x ->
  atomic_selection a -> a_sub_sample_traj a = Z.of_nat k ->
  let ts := pynum_val (a_time_step a) in
  sensible (kept n k) (IZR (a_step_skip a) * ts) (a_opts a) -> o_sampling (a_opts a) = "multi-origin"%string ->
  ase_parser geomspace_R circ
    (frames_of types vol n natoms (fun f a => plus3 (x f a) (ivec (img f a))) (fun _ => cell)) a = Ok p ->
  Forall (valid_site natoms) (p_indices p) -> Forall (valid_site natoms) (p_drift_indices p) ->
  forall q arr, nth_error (p_disp_3d p) q = Some arr -> exists m : nat,
     reports_interval natoms (kept n k) k (fun f a => cart cell (x f a)) (p_indices p) (p_drift_indices p) m arr
     /\ forall j, nth_error (p_delta_t p) q
                  = Some (frame_time (a_step_skip a) ts (j * k) ((j + m) * k) / INR k)%R.
Proof. exact C21_ase_proof. Qed.
Print Assumptions C21_ase_partial.

(** ** C22: picoseconds. Proved for float time steps in [C07_pymatgen_partial] and [C21_pymatgen];
    restated here for the reported times alone, without any assumption on the motion. *)
Theorem C22_picoseconds :
  forall circ (frames : list (Frame R)) (a : Params R) t p, a_time_step a = PyFloat t ->
  pymatgen_parser geomspace_R circ frames a = Ok p ->
  p_delta_t p = map (fun z => IZR z * t * (IZR (a_step_skip a) * IZR (a_sub_sample_traj a)) / 1000)%R (p_intervals p).
Proof. exact C22_proof. Qed.
Print Assumptions C22_picoseconds.
Example C22_example : forall circ, exists p,
  pymatgen_parser geomspace_R circ (hop_frames 3)
    (hop_params 1 (PyFloat 1%R) (mkOptions (Some 1) (Some 3) 100 "linear" "multi-origin" 8 8)%R) = Ok p.
Proof.
  intros circ. destruct (C07_refuted_proof circ) as (p & _ & H & _). eexists.
  eapply (pymatgen_of_ase geomspace_R circ _ _ (PyFloat 1%R) p); [reflexivity..|]. exact H.
Qed.
(** With an integer time step the constructor never succeeds; here a valid trajectory. *)
Theorem C22_integer_time_step_refuted : forall circ, 
  pymatgen_parser geomspace_R circ (hop_frames 3)
    (hop_params 1 (PyInt 1) (mkOptions (Some 1) (Some 3) 100 "linear" "multi-origin" 8 8)%R) = Raise UFuncTypeError.
Proof. exact C22_int_refuted_proof. Qed.
Print Assumptions C22_integer_time_step_refuted.
Theorem C22_integer_time_step_never_succeeds :
  forall circ (frames : list (Frame R)) (a : Params R) z p,
  a_time_step a = PyInt z -> pymatgen_parser geomspace_R circ frames a <> Ok p.
Proof. exact C22_int_proof. Qed.
Print Assumptions C22_integer_time_step_never_succeeds.

(** ** C52: atom sub-sampling (MDAnalysis) *)
Theorem C52_sub_sampling_keeps_every_kth_atom :
  forall geo circ types vol n natoms (pos : nat -> nat -> V3 R) cell (a : Params R) ka types',
  (0 < ka)%nat -> a_sub_sample_atoms a = Z.of_nat ka -> a_specie_indices a = SINone -> 0 < a_sub_sample_traj a ->
  sub_sample ka types types' ->
  mda_parser geo circ (frames_of types vol n natoms pos cell) a
  = mda_parser geo circ (frames_of types' vol n (kept natoms ka) (fun f b => pos f (b * ka)%nat) cell)
      (without_atom_sampling a).
Proof. exact C52_subsample_proof. Qed.
Print Assumptions C52_sub_sampling_keeps_every_kth_atom.
Example C52_example : sub_sample 2 ["Li"; "O"; "Li"; "P"; "S"]%string ["Li"; "Li"; "S"]%string /\ kept 5 2 = 3%nat.
Proof. split; [|reflexivity]. intros [|[|[|i]]]; reflexivity || (cbn; destruct i; reflexivity). Qed.
Theorem C52_rejected_with_specie_indices :
  forall geo circ (frames : list (Frame R)) (a : Params R),
  a_sub_sample_atoms a <> 1 -> a_specie_indices a <> SINone ->
  mda_parser geo circ frames a = Raise ValueError.
Proof. exact C52_rejected_proof. Qed.
Print Assumptions C52_rejected_with_specie_indices.
Theorem C52_coordinates_are_fractional :
  forall (frames : list (Frame R)) ka kt coords latt st,
  0 < ka -> 0 < kt -> get_structure_coords_latt_mda frames ka kt = Ok (st, coords, latt) ->
  forall j fr i p, nth_error frames (j * Z.to_nat kt) = Some fr ->
  nth_error (f_pos fr) (i * Z.to_nat ka) = Some p ->
  exists c u, nth_error coords (S j) = Some c /\ nth_error c i = Some u
    /\ nth_error latt (S j) = Some (f_cell fr) /\ cart (f_cell fr) u = p.
Proof. exact C52_coordinates_proof. Qed.
Print Assumptions C52_coordinates_are_fractional.
