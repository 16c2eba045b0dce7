(** * SpecLive: vocabulary of C84, input that the documentation allows *)
From Verif Require Import Base Spec SpecParser SpecStats SpecMol ModelParser ModelDiffusion ModelHdf ModelAnalyzer SpecRun SpecTrue.
From Coq Require Import Reals.
Open Scope Z_scope.

(** Only the MDAnalysis interface can leave out atoms. *)
Definition atom_stride (i : interface) (a : ModelParser.Params R) : Z :=
  match i with MDAnalysis => a_sub_sample_atoms a | _ => 1 end.

(** A selection of diffusing atoms among atoms of the given types: by species, at least one of which is there; by a
    list of positions; or as molecules of [len] atoms each, counted from 1, with masses that do not sum to zero. A
    framework may be given by a list of positions (counted from 1 for molecules), except together
    with a list of positions. *)
Inductive selects (types : list string) (a : ModelParser.Params R) : Prop :=
| by_species sp name : a_specie a = Some sp -> In name types -> In name sp ->
    (forall l, a_framework a = PyList l -> Forall (valid_site (length types)) l) -> selects types a
| by_positions l : a_specie a = None -> a_specie_indices a = SIFlat l -> l <> [] -> Forall (valid_site (length types)) l ->
    (forall f, a_framework a <> PyList f) -> selects types a
| by_molecules l (len : nat) : a_specie a = None -> a_specie_indices a = SIMol l -> l <> [] -> (0 < len)%nat ->
    Forall (fun m => length m = len /\ Forall (fun z => valid_site (length types) (z - 1)) m) l ->
    (forall w, a_masses a = Some w -> length w = len /\ rsum w <> 0%R) ->
    (forall f, a_framework a = PyList f -> f <> [] /\ Forall (fun z => valid_site (length types) (z - 1)) f) -> selects types a.

(** How many atoms or molecules are followed. *)
Definition followed (types : list string) (a : ModelParser.Params R) : nat :=
  match a_specie a, a_specie_indices a with
  | Some sp, _ => length (filter (fun name => existsb (String.eqb name) sp) types)
  | None, SIFlat l => length l
  | None, SIMol l => length l
  | None, _ => 0%nat
  end.
(** The types of the atoms that are read. *)
Definition types_read (i : interface) (types types' : list string) (a : ModelParser.Params R) : Prop :=
  sub_sample (Z.to_nat (atom_stride i a)) types types'.

(** Frames and arguments as documented: at least one frame, every frame with the same atoms in a cell that is not
    flat; positive strides; atoms to follow; a float time step for pymatgen; and sensible time options with the first
    interval shorter than the trajectory. *)
Record documented (i : interface) (frames : list (Frame R)) (types : list string) (a : ModelParser.Params R) : Prop := {
  doc_frames : frames <> [];
  doc_atoms : Forall (fun f => f_types f = types /\ length (f_pos f) = length types /\ cell_volume (f_cell f) <> 0%R) frames;
  doc_traj : 0 < a_sub_sample_traj a;
  doc_stride : 0 < a_sub_sample_atoms a;
  doc_selection : exists types', types_read i types types' a /\ selects types' a
    /\ (i = MDAnalysis -> a_specie_indices a <> SINone -> a_sub_sample_atoms a = 1);
  doc_time : i = Pymatgen -> exists t, a_time_step a = PyFloat t;
  doc_sampling : o_sampling (a_opts a) = "multi-origin"%string \/ o_sampling (a_opts a) = "single-origin"%string;
  doc_options : let T := kept (length frames) (Z.to_nat (a_sub_sample_traj a)) in
    let u := (IZR (steps_by i a) * pynum_val (a_time_step a))%R in
    sensible T u (a_opts a) /\ 1 <= o_n_steps (a_opts a) /\ (min_time u (a_opts a) < INR T * u)%R }.
