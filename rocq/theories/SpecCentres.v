(** * SpecCentres: molecules followed as if they were atoms (C95) *)
From Verif Require Import Base Spec SpecParser SpecMol ModelParser SpecRun SpecTrue.
From Coq Require Import Reals.
Open Scope Z_scope.

(** The same parameters, asking for the atoms numbered [l] (from zero), all others being the framework. *)
Definition following (a : Params R) (l : list Z) : Params R :=
  mkParams None (a_time_step a) (a_step_skip a) 1 (a_sub_sample_traj a) (a_opts a) (SIFlat l) None PyNone.
(** [p] is a successful reading, through interface [i], of molecules [indices] with framework atoms [fw] in
    [n] frames of [natoms] atoms at the true fractional coordinates [x] in a fixed cell, handed over in any periodic images.
    The molecules have atoms and positive masses and span less than half a cell in the frames used, every [k]-th. *)
Record molecule_read (i : interface) (cell : M3 R) types vol (n natoms k : nat) (x : nat -> nat -> V3 R)
    (a : Params R) (indices : list (list Z)) (fw : list Z) (p : Parsed R) : Prop := {
  mr_cell : cell_volume cell <> 0%R;
  mr_types : length types = natoms;
  mr_k : (0 < k)%nat;
  mr_traj : a_sub_sample_traj a = Z.of_nat k;
  mr_selection : molecule_selection a indices;
  mr_framework : molecule_framework natoms indices (given_framework (a_framework a)) fw;
  mr_atoms : forall mol, In mol indices -> mol <> [];
  mr_masses : positive_masses (a_masses a);
  mr_narrow : forall f mol, (f * k < n)%nat -> In mol indices -> on_axes narrow (map (fun j => x (f * k)%nat (site natoms (j - 1))) mol);
  mr_read : exists img : nat -> nat -> V3 Z,
    parser_by i geomspace_R circular_mean_R (handed_over i cell types vol n natoms (fun f b => plus3 (x f b) (ivec (img f b)))) a = Ok p }.
(** As many sites as centres of mass and framework atoms. *)
Definition sites (indices : list (list Z)) (fw : list Z) : nat := (length indices + length fw)%nat.
(** What C81 and its relatives ask of the options and of the motion, here of the centres of mass. *)
Record well_sampled (i : interface) (n natoms k : nat) (x : nat -> nat -> V3 R) (a : Params R) (indices : list (list Z)) (fw : list Z) : Prop := {
  ws_steps : small_steps n (sites indices fw) k (centres natoms (a_masses a) indices fw x);
  ws_sampling : o_sampling (a_opts a) = "multi-origin"%string;
  ws_options : sensible (kept n k) (IZR (steps_by i a) * pynum_val (a_time_step a)) (a_opts a) }.
