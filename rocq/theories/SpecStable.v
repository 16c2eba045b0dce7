(** * SpecStable: vocabulary of C93, trajectories close to each other *)
From Verif Require Import Base Spec SpecParser SpecStats.
From Coq Require Import Reals.
Open Scope R_scope.

(** The length of a vector along the given axes. *)
Definition len (axes : list axis) (v : V3 R) : R := sqrt (sqlen axes v).
(** In every used frame every atom is within [eps] of the other position. *)
Definition near (axes : list axis) (n natoms k : nat) (eps : R) (pos pos' : nat -> nat -> V3 R) : Prop :=
  forall f b, (f * k < n)%nat -> (b < natoms)%nat -> len axes (minus3 (pos (f * k)%nat b) (pos' (f * k)%nat b)) <= eps.
(** A displacement has two ends; with a framework to refer to, its ends count too. *)
Definition ends (fw : list Z) : R := match fw with [] => 2 | _ => 4 end.
