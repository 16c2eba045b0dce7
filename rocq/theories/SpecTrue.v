(** * SpecTrue: vocabulary of C81-C83, reported statistics in terms of the true trajectory *)
From Verif Require Import Base Spec SpecParser SpecStats ModelParser ModelDiffusion ModelHdf ModelAnalyzer SpecRun.
From Coq Require Import Reals.
Open Scope Z_scope.

(** The three ways of handing over a trajectory. *)
Inductive interface := Ase | Pymatgen | MDAnalysis.
Definition parser_by (i : interface) : parser_of :=
  match i with Ase => ase_parser | Pymatgen => pymatgen_parser | MDAnalysis => mda_parser end.
(** What is handed over for atoms at fractional coordinates [y] in a cell: MDAnalysis gives
    Cartesian positions. *)
Definition handed_over (i : interface) (cell : M3 R) types vol n natoms (y : nat -> nat -> V3 R) : list (Frame R) :=
  match i with
  | MDAnalysis => frames_of types vol n natoms (fun f a => cart cell (y f a)) (fun _ => cell)
  | _ => frames_of types vol n natoms y (fun _ => cell)
  end.
(** Simulation steps between used frames, as the constructors count them (C21: not with ASE). *)
Definition steps_by (i : interface) (a : ModelParser.Params R) : Z :=
  match i with Ase => a_step_skip a | _ => a_step_skip a * a_sub_sample_traj a end.

(** [p] is a successful reading through interface [i] of [n] frames of [natoms] atoms moving along
    the true (unwrapped) fractional coordinates [x] in a fixed cell; the coordinates handed over may
    be in any periodic image; every [k]-th frame is used, atoms move by less than half a cell between
    used frames; atoms are chosen one by one, all observation windows are used, and the options are
    in the documented range. *)
Record faithful_read (i : interface) circ (cell : M3 R) types vol (n natoms k : nat) (x : nat -> nat -> V3 R)
    (a : ModelParser.Params R) (p : Parsed R) : Prop := {
  fr_cell : cell_volume cell <> 0%R;
  fr_types : length types = natoms;
  fr_k : (0 < k)%nat;
  fr_traj : a_sub_sample_traj a = Z.of_nat k;
  fr_atoms : a_sub_sample_atoms a = 1;
  fr_steps : small_steps n natoms k x;
  fr_selection : atomic_selection a;
  fr_sampling : o_sampling (a_opts a) = "multi-origin"%string;
  fr_options : sensible (kept n k) (IZR (steps_by i a) * pynum_val (a_time_step a)) (a_opts a);
  fr_indices : Forall (valid_site natoms) (p_indices p);
  fr_drift : Forall (valid_site natoms) (p_drift_indices p);
  fr_read : exists img : nat -> nat -> V3 Z,
      parser_by i geomspace_R circ (handed_over i cell types vol n natoms (fun f a => plus3 (x f a) (ivec (img f a)))) a = Ok p }.

(** The atoms' mean squared displacement between used frames [f] and [g] (relative to the
    framework). *)
Definition square_between (axes : list axis) (natoms k : nat) (pos : nat -> nat -> V3 R) (idx fw : list Z) (f g : nat) : R :=
  average (map (fun i => sqlen axes (relative_displacement natoms pos fw (site natoms i) (f * k) (g * k))) idx).
(** The true mean squared displacement over an interval of [m] of the [T] used frames: the average over
    all [T - m] pairs of frames that far apart. *)
Definition true_msd (axes : list axis) (natoms k : nat) (pos : nat -> nat -> V3 R) (idx fw : list Z) (T m : nat) : R :=
  average (tab (T - m) (fun j => square_between axes natoms k pos idx fw j (j + m))).

(** ** Supercells *)
(** The cell repeated [vx s], [vy s], [vz s] times along its three vectors. *)
Definition repeated_cell (s : V3 nat) (cell : M3 R) : M3 R :=
  mkM (scale3 (INR (vx s)) (mr0 cell)) (scale3 (INR (vy s)) (mr1 cell)) (scale3 (INR (vz s)) (mr2 cell)).
(** Atom [b] of the supercell is atom [b mod natoms] shifted by the lattice vector of copy
    [b / natoms]; fractional coordinates refer to the larger cell. *)
Definition repeated_atoms (s : V3 nat) (shift : nat -> V3 Z) (natoms : nat) (x : nat -> nat -> V3 R) (f b : nat) : V3 R :=
  let v := plus3 (x f (b mod natoms)%nat) (ivec (shift (b / natoms)%nat)) in
  (mkV (vx v / INR (vx s)) (vy v / INR (vy s)) (vz v / INR (vz s)))%R.
Definition repeated_types (c : nat) (types : list string) : list string := List.concat (repeat types c).
(** Its trajectory as handed over, in any periodic images. *)
Definition supercell_frames i s c shift cell types vol n natoms x (img : nat -> nat -> V3 Z) : list (Frame R) :=
  handed_over i (repeated_cell s cell) (repeated_types c types) vol n (c * natoms) (fun f b => plus3 (repeated_atoms s shift natoms x f b) (ivec (img f b))).
(** Collective statistics of [c] copies: all reported intervals stay, means grow by c^2, variances by c^4. *)
Definition grown (c : nat) (b b' : Boot R) : Prop := forall j t, nth_error (b_dt b) j = Some t -> nth_error (b_dt b') j = Some t
  /\ exists m v, nth_error (b_n b) j = Some m /\ nth_error (b_n b') j = Some (INR c * INR c * m)%R
    /\ nth_error (b_v b) j = Some v /\ nth_error (b_v b') j = Some (INR c * INR c * (INR c * INR c) * v)%R.
