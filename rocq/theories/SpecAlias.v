(** * SpecAlias: vocabulary of C116, trajectories stored too rarely *)
From Verif Require Import Base Spec SpecParser SpecStats SpecTrue ModelParser ModelDiffusion.
From Coq Require Import Reals.
Open Scope Z_scope.

(** As [faithful_read], but atoms may move by any amount between used frames. *)
Record any_read (i : interface) circ (cell : M3 R) types vol (n natoms k : nat) (x : nat -> nat -> V3 R)
    (a : ModelParser.Params R) (p : Parsed R) : Prop := {
  ar_cell : cell_volume cell <> 0%R;
  ar_types : length types = natoms;
  ar_k : (0 < k)%nat;
  ar_traj : a_sub_sample_traj a = Z.of_nat k;
  ar_atoms : a_sub_sample_atoms a = 1;
  ar_selection : atomic_selection a;
  ar_sampling : o_sampling (a_opts a) = "multi-origin"%string;
  ar_options : sensible (kept n k) (IZR (steps_by i a) * pynum_val (a_time_step a)) (a_opts a);
  ar_indices : Forall (valid_site natoms) (p_indices p);
  ar_drift : Forall (valid_site natoms) (p_drift_indices p);
  ar_read : exists img : nat -> nat -> V3 Z,
      parser_by i geomspace_R circ (handed_over i cell types vol n natoms (fun f a => plus3 (x f a) (ivec (img f a)))) a = Ok p }.

(** [y] visits periodic images of the same positions as [x]. *)
Definition same_images (x y : nat -> nat -> V3 R) : Prop := forall f a, exists z : V3 Z, y f a = plus3 (x f a) (ivec z).
(** [y] starts with [x], visits the same positions but for periodic images, and no component of its steps
    between used frames exceeds half the cell. *)
Record shortest_path (n natoms k : nat) (x y : nat -> nat -> V3 R) : Prop := {
  sp_start : forall a, y 0%nat a = x 0%nat a;
  sp_images : same_images x y;
  sp_steps : small_steps n natoms k y }.
(** Each component of [u] is at most that of [v] in size. *)
Definition no_longer (u v : V3 R) : Prop := forall d, (Rabs (coord u d) <= Rabs (coord v d))%R.

(** How far the cell extends along a Cartesian direction; the squares of that added up over [axes]. *)
Definition extent (cell : M3 R) (d : axis) : R := (Rabs (coord (mr0 cell) d) + Rabs (coord (mr1 cell) d) + Rabs (coord (mr2 cell) d))%R.
Definition squared_extent (axes : list axis) (cell : M3 R) : R := rsum (map (fun d => extent cell d * extent cell d)%R axes).

(** No component of a step between successive stored frames reaches 1/(2c) of the cell. *)
Definition slow (c : nat) (n natoms : nat) (x : nat -> nat -> V3 R) : Prop :=
  forall f a d, (S f < n)%nat -> (a < natoms)%nat -> (INR c * Rabs (coord (minus3 (x (S f) a) (x f a)) d) < / 2)%R.
