(** * SpecNpt: vocabulary of C92, trajectories with a changing cell *)
From Verif Require Import Base Spec SpecParser SpecStats ModelParser ModelDiffusion ModelHdf ModelAnalyzer SpecRun SpecTrue.
From Coq Require Import Reals.
Open Scope Z_scope.

(** What is handed over for atoms at fractional coordinates [c] in cells [l] of volumes [vol], one of each per frame;
    MDAnalysis gives Cartesian positions. *)
Definition npt_frames (i : interface) types (vol : nat -> R) n natoms (c : nat -> nat -> V3 R) (l : nat -> M3 R) : list (Frame R) :=
  tab n (fun f => mkFrame types (tab natoms (fun a => match i with MDAnalysis => cart (l f) (c f a) | _ => c f a end)) (l f) (vol f)).

(** Atom [a] moves along the true (unwrapped) fractional coordinates [x f a] and is stored [img f a] cells away from
    there. Its true displacement from the first used frame to used frame [t]: *)
Definition cartesian_path (l : nat -> M3 R) (k : nat) (x : nat -> nat -> V3 R) (a t : nat) : V3 R :=
  minus3 (cart (l (t * k)%nat) (x (t * k)%nat a)) (cart (l 0%nat) (x 0%nat a)).
(** The changes of the cell, each counted as often as the atom is stored away from its true position at that moment: *)
Fixpoint breathing (l : nat -> M3 R) (k : nat) (img : nat -> nat -> V3 Z) (a t : nat) : V3 R :=
  match t with
  | O => zero3
  | S j => plus3 (breathing l k img a j)
                 (minus3 (cart (l (S j * k)%nat) (ivec (img (j * k)%nat a))) (cart (l (j * k)%nat) (ivec (img (j * k)%nat a))))
  end.
Definition tor_path l k x img a t : V3 R := plus3 (cartesian_path l k x a t) (breathing l k img a t).

(** Between used frames every atom goes along [tor_path] by less than half of the new cell. *)
Definition small_npt_steps (n natoms k : nat) l x img : Prop :=
  forall f a, (S f * k < n)%nat -> (a < natoms)%nat ->
    exists u, within_half u /\ minus3 (tor_path l k x img a (S f)) (tor_path l k x img a f) = cart (l (S f * k)%nat) u.

(** [p] is a successful reading through interface [i] of such a trajectory (compare [faithful_read], the case of a
    fixed cell). *)
Record npt_read (i : interface) circ (l : nat -> M3 R) types vol (n natoms k : nat) (x : nat -> nat -> V3 R) (img : nat -> nat -> V3 Z)
    (a : ModelParser.Params R) (p : Parsed R) : Prop := {
  nr_cells : forall f, (f < n)%nat -> cell_volume (l f) <> 0%R;
  nr_types : length types = natoms;
  nr_k : (0 < k)%nat;
  nr_traj : a_sub_sample_traj a = Z.of_nat k;
  nr_atoms : a_sub_sample_atoms a = 1;
  nr_steps : small_npt_steps n natoms k l x img;
  nr_selection : atomic_selection a;
  nr_sampling : o_sampling (a_opts a) = "multi-origin"%string;
  nr_options : sensible (kept n k) (IZR (steps_by i a) * pynum_val (a_time_step a)) (a_opts a);
  nr_indices : Forall (valid_site natoms) (p_indices p);
  nr_drift : Forall (valid_site natoms) (p_drift_indices p);
  nr_read : parser_by i geomspace_R circ (npt_frames i types vol n natoms (fun f a => plus3 (x f a) (ivec (img f a))) l) a = Ok p }.

(** ** Example: the cell grows by a tenth along x at every frame; the atoms rest in it *)
Definition growing (f : nat) : M3 R := (mkM (mkV (1 + INR f / 10) 0 0) (mkV 0 1 0) (mkV 0 0 1))%R.
Definition resting (f a : nat) : V3 R := match a with O => mkV (1 / 2)%R 0%R 0%R | _ => zero3 end.
(** An atom going a quarter of the cell at every frame through the boundary. *)
Definition crossing (f a : nat) : V3 R := mkV (3 / 4 + INR f / 4)%R 0%R 0%R.
Definition folded (f a : nat) : V3 Z := match f with O => mkV 0 0 0 | _ => mkV (-1) 0 0 end.
Definition growing_volumes (f : nat) : R := (1 + INR f / 10)%R.
