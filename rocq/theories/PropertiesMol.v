(** * PropertiesMol: C19, C20 and the molecule part of C53

    [circular_mean_R] is the code's circular mean over the reals. Molecules number their atoms from
    one. [x f a] is the true fractional position, [img f a] the whole cells by which what the
    parser sees may differ. *)
From Verif Require Import Base ModelParser Spec SpecParser SpecMol SpecAnalyzer Lemmas ProofsTraj ProofsMol ProofsMolTraj SpecRun.
From Coq Require Import Reals.
Open Scope R_scope.

(** ** C19 *)
Theorem C19_range : forall natoms coords indices masses framework new idx didx f j c,
  get_molecules circular_mean_R natoms coords indices masses framework = Ok (new, (idx, didx)) ->
  (j < length indices)%nat -> entry new f j = Some c -> 0 <= vx c < 1 /\ 0 <= vy c < 1 /\ 0 <= vz c < 1.
Proof. exact C19_range_proof. Qed.
Print Assumptions C19_range.

Theorem C19_images : forall natoms coords coords' indices masses framework new idx didx,
  get_molecules circular_mean_R natoms coords indices masses framework = Ok (new, (idx, didx)) ->
  Forall2 (Forall2 image3) coords coords' ->
  exists new', get_molecules circular_mean_R natoms coords' indices masses framework = Ok (new', (idx, didx))
  /\ forall f j, (j < length indices)%nat -> entry new' f j = entry new f j.
Proof. exact C19_images_proof. Qed.
Print Assumptions C19_images.

(** The translation part is false of the code: two atoms half a cell apart have no mean direction.
    Their centre is at 1/4, before and after moving both by half a cell. *)
Theorem C19_translation_refuted : exists new new' c c', let two := [line3 0; line3 (1 / 2)] in
  get_molecules circular_mean_R 2 [two] [[1; 2]%Z] None PyNone = Ok (new, ([0%Z], []))
  /\ get_molecules circular_mean_R 2 [map (plus3 (line3 (1 / 2))) two] [[1; 2]%Z] None PyNone = Ok (new', ([0%Z], []))
  /\ entry new 0 0 = Some c /\ entry new' 0 0 = Some c' /\ ~ wraps3 c' (plus3 c (line3 (1 / 2))).
Proof. exact C19_translation_refuted_proof. Qed.
Print Assumptions C19_translation_refuted.

(** What is true: frame [f] is moved by the [f]-th vector of [ts]. Missing: molecules whose weighted
    mean direction vanishes on some axis, and masses of sum zero. *)
Theorem C19_translation_partial : forall natoms coords coords' ts indices masses framework new idx didx,
  get_molecules circular_mean_R natoms coords indices masses framework = Ok (new, (idx, didx)) ->
  length ts = length coords -> coords' = map (fun p => map (plus3 (fst p)) (snd p)) (combine ts coords) ->
  nonzero_masses masses ->
  (forall frame mol atoms, In frame coords -> In mol indices -> members frame mol atoms ->
     mol <> [] /\ on_axes (has_direction (weights_of masses (length mol))) atoms) ->
  exists new', get_molecules circular_mean_R natoms coords' indices masses framework = Ok (new', (idx, didx))
  /\ forall f j t c, (j < length indices)%nat -> nth_error ts f = Some t -> entry new f j = Some c ->
     exists c', entry new' f j = Some c' /\ wraps3 c' (plus3 c t).
Proof. exact C19_translation_proof. Qed.
Print Assumptions C19_translation_partial.
(** Molecules of less than half the cell with positive masses have a mean direction. *)
Theorem C19_narrow_has_direction : forall ws u, u <> [] -> length ws = length u -> Forall (fun x => 0 < x) ws ->
  on_axes narrow u -> on_axes (has_direction ws) u.
Proof. exact narrow_directions. Qed.
Print Assumptions C19_narrow_has_direction.
Example C19_example : exists new, let frame := [line3 (9 / 10); line3 (11 / 10); line3 0] in
  get_molecules circular_mean_R 3 [frame] [[1; 2]%Z] (Some [1; 3]) PyNone = Ok (new, ([0%Z], [1%Z]))
  /\ members frame [1; 2]%Z [line3 (9 / 10); line3 (11 / 10)]
  /\ on_axes (has_direction (weights_of (Some [1; 3]) 2)) [line3 (9 / 10); line3 (11 / 10)].
Proof. exact C19_example_proof. Qed.

(** ** C20

    One frame: [u] are the true positions of the atoms, [atoms] what the frame holds. *)
Theorem C20_centre_of_mass : forall natoms coords indices masses framework new idx didx f frame j mol atoms u,
  get_molecules circular_mean_R natoms coords indices masses framework = Ok (new, (idx, didx)) ->
  nth_error coords f = Some frame -> nth_error indices j = Some mol -> mol <> [] ->
  members frame mol atoms -> Forall2 image3 u atoms -> on_axes narrow u -> positive_masses masses ->
  exists c, entry new f j = Some c /\ wraps3 c (com3 (weights_of masses (length mol)) u).
Proof. exact C20_proof. Qed.
Print Assumptions C20_centre_of_mass.

(** Whole runs with a fixed cell: what is reported are the displacements of the true centres of
    mass relative to the framework (with the first observation of an interval as in C07). *)
Theorem C20_ase : forall cell types vol n natoms k (a : Params R) indices fw,
  cell_volume cell <> 0 -> (0 < k)%nat -> length types = natoms -> molecule_selection a indices ->
  molecule_framework natoms indices (given_framework (a_framework a)) fw -> a_sub_sample_traj a = Z.of_nat k ->
  forall (x : nat -> nat -> V3 R) (img : nat -> nat -> V3 Z),
  (forall mol, In mol indices -> mol <> []) -> positive_masses (a_masses a) ->
  (forall f mol, (f * k < n)%nat -> In mol indices -> on_axes narrow (map (fun i => x (f * k)%nat (site natoms (i - 1))) mol)) ->
  small_steps n (length indices + length fw) k (centres natoms (a_masses a) indices fw x) ->
  o_sampling (a_opts a) = "multi-origin"%string ->
  forall p, sensible (kept n k) (IZR (a_step_skip a) * pynum_val (a_time_step a)) (a_opts a) ->
  ase_parser geomspace_R circular_mean_R
    (frames_of types vol n natoms (fun f a => plus3 (x f a) (ivec (img f a))) (fun _ => cell)) a = Ok p ->
  reports_centres cell n k natoms (a_masses a) indices fw x (pynum_val (a_time_step a) * IZR (a_step_skip a)) p.
Proof. exact run_ase. Qed.
Print Assumptions C20_ase.

Theorem C20_pymatgen : forall cell types vol n natoms k (a : Params R) indices fw,
  cell_volume cell <> 0 -> (0 < k)%nat -> length types = natoms -> molecule_selection a indices ->
  molecule_framework natoms indices (given_framework (a_framework a)) fw -> a_sub_sample_traj a = Z.of_nat k ->
  forall (x : nat -> nat -> V3 R) (img : nat -> nat -> V3 Z),
  (forall mol, In mol indices -> mol <> []) -> positive_masses (a_masses a) ->
  (forall f mol, (f * k < n)%nat -> In mol indices -> on_axes narrow (map (fun i => x (f * k)%nat (site natoms (i - 1))) mol)) ->
  small_steps n (length indices + length fw) k (centres natoms (a_masses a) indices fw x) ->
  o_sampling (a_opts a) = "multi-origin"%string ->
  forall p, sensible (kept n k) (IZR (a_step_skip a * Z.of_nat k) * pynum_val (a_time_step a)) (a_opts a) ->
  pymatgen_parser geomspace_R circular_mean_R
    (frames_of types vol n natoms (fun f a => plus3 (x f a) (ivec (img f a))) (fun _ => cell)) a = Ok p ->
  reports_centres cell n k natoms (a_masses a) indices fw x (pynum_val (a_time_step a) * IZR (a_step_skip a) * INR k / 1000) p.
Proof. exact run_pymatgen. Qed.
Print Assumptions C20_pymatgen.

Theorem C20_mdanalysis : forall cell types vol n natoms k (a : Params R) indices fw,
  cell_volume cell <> 0 -> (0 < k)%nat -> length types = natoms -> molecule_selection a indices ->
  molecule_framework natoms indices (given_framework (a_framework a)) fw -> a_sub_sample_traj a = Z.of_nat k ->
  forall (x : nat -> nat -> V3 R) (img : nat -> nat -> V3 Z),
  (forall mol, In mol indices -> mol <> []) -> positive_masses (a_masses a) ->
  (forall f mol, (f * k < n)%nat -> In mol indices -> on_axes narrow (map (fun i => x (f * k)%nat (site natoms (i - 1))) mol)) ->
  small_steps n (length indices + length fw) k (centres natoms (a_masses a) indices fw x) ->
  o_sampling (a_opts a) = "multi-origin"%string ->
  forall p, sensible (kept n k) (IZR (a_step_skip a * Z.of_nat k) * pynum_val (a_time_step a)) (a_opts a) ->
  mda_parser geomspace_R circular_mean_R
    (frames_of types vol n natoms (fun f a => cart cell (plus3 (x f a) (ivec (img f a)))) (fun _ => cell)) a = Ok p ->
  reports_centres cell n k natoms (a_masses a) indices fw x (pynum_val (a_time_step a) * IZR (a_step_skip a) * INR k) p.
Proof. exact run_mda. Qed.
Print Assumptions C20_mdanalysis.

(** A molecule of masses 1 and 3 across the cell boundary that moves by a tenth of the cell. *)
Example C20_example : exists p arr,
  ase_parser geomspace_R circular_mean_R
    (frames_of pair_types 1 3 3 (fun f i => plus3 (crossing f i) (ivec (crossing_img f i))) (fun _ => unit_cell))
    (pair_params crossing_masses) = Ok p
  /\ p_disp_3d p = [arr] /\ arr_entry arr 0 2 = Some (line3 (1 / 10)).
Proof. exact C20_example_proof. Qed.
Example C20_example_narrow : forall f, on_axes narrow [crossing f 0; crossing f 1].
Proof. exact crossing_narrow. Qed.

(** ** C53 with molecules

    All atoms share the motion [u]. Missing: molecules without a mean direction. *)
Theorem C53_molecules_partial : forall cell types vol n natoms k (a : Params R) indices,
  cell_volume cell <> 0 -> (0 < k)%nat -> length types = natoms -> molecule_selection a indices -> a_sub_sample_traj a = Z.of_nat k ->
  forall (x0 u : nat -> V3 R) (img : nat -> nat -> V3 Z), nonzero_masses (a_masses a) ->
  (forall mol, In mol indices -> mol <> []
     /\ on_axes (has_direction (weights_of (a_masses a) (length mol))) (map (fun i => x0 (site natoms (i - 1))) mol)) ->
  forall p, let frames := frames_of types vol n natoms (fun f i => plus3 (plus3 (x0 i) (u f)) (ivec (img f i))) (fun _ => cell) in
  ase_parser geomspace_R circular_mean_R frames a = Ok p \/ pymatgen_parser geomspace_R circular_mean_R frames a = Ok p ->
  p_drift_indices p <> [] -> motionless p.
Proof. exact still_ase. Qed.
Print Assumptions C53_molecules_partial.
Theorem C53_molecules_mda_partial : forall cell types vol n natoms k (a : Params R) indices,
  cell_volume cell <> 0 -> (0 < k)%nat -> length types = natoms -> molecule_selection a indices -> a_sub_sample_traj a = Z.of_nat k ->
  forall (x0 u : nat -> V3 R) (img : nat -> nat -> V3 Z), nonzero_masses (a_masses a) ->
  (forall mol, In mol indices -> mol <> []
     /\ on_axes (has_direction (weights_of (a_masses a) (length mol))) (map (fun i => x0 (site natoms (i - 1))) mol)) ->
  forall p,
  mda_parser geomspace_R circular_mean_R
    (frames_of types vol n natoms (fun f i => cart cell (plus3 (plus3 (x0 i) (u f)) (ivec (img f i)))) (fun _ => cell)) a = Ok p ->
  p_drift_indices p <> [] -> motionless p.
Proof. exact still_mda. Qed.
Print Assumptions C53_molecules_mda_partial.
(** Without a mean direction it is false: every atom moves by a quarter of the cell per frame, yet
    the two-atom molecule is reported to move relative to the framework. *)
Theorem C53_molecules_refuted : exists p,
  ase_parser geomspace_R circular_mean_R
    (frames_of pair_types 1 3 3 (fun f i => plus3 (opposite i) (quarters f)) (fun _ => unit_cell)) (pair_params None) = Ok p
  /\ p_drift_indices p <> [] /\ ~ motionless p.
Proof. exact C53_molecules_refuted_proof. Qed.
Print Assumptions C53_molecules_refuted.
