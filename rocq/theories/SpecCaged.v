(** * SpecCaged: vocabulary of C112, atoms kept in place and atoms moving uniformly *)
From Verif Require Import Base Spec SpecParser SpecStats SpecTrue SpecFit SpecFitErr.
From Coq Require Import Reals.
Open Scope R_scope.

(** In the [T] used frames no followed atom is ever further than [a] from where it was, relative to the framework. *)
Definition caged (axes : list axis) (natoms k : nat) (pos : nat -> nat -> V3 R) (idx fw : list Z) (T : nat) (a : R) : Prop :=
  forall i f g, In i idx -> (f <= g < T)%nat -> sqlen axes (relative_displacement natoms pos fw (site natoms i) (f * k) (g * k)) <= a * a.
(** Relative to the framework, each followed atom [i] moves by [vel i] from each used frame to the next. *)
Definition uniform_motion (natoms k : nat) (pos : nat -> nat -> V3 R) (idx fw : list Z) (T : nat) (vel : Z -> V3 R) : Prop :=
  forall i f g, In i idx -> (f <= g < T)%nat -> relative_displacement natoms pos fw (site natoms i) (f * k) (g * k) = scale3 (INR (g - f)) (vel i).
(** The variance of the fitted times; their mean square. *)
Definition time_spread (dt : list R) : R := variation dt / INR (length dt).
Definition time_square (dt : list R) : R := variation_origin dt / INR (length dt).
