(** * SpecRest: vocabulary of C121, displacements in the frame of the centre of mass *)
From Verif Require Import Base Spec SpecParser SpecStats SpecColl.
From Coq Require Import Reals.
Open Scope R_scope.

(** The sum of the vectors [l] weighted with [c]. *)
Definition weighted (c : list R) (l : list (V3 R)) : V3 R := sum3 (map (fun p => scale3 (fst p) (snd p)) (combine c l)).
(** The centre of mass of the followed atoms [idx] (masses [mass]) and the framework [fw] (each atom of mass
    [M]) stays where it is in all [T] used frames. *)
Definition centre_at_rest (natoms k T : nat) (pos : nat -> nat -> V3 R) (idx fw : list Z) (mass : list R) (M : R) : Prop :=
  exists C, forall f, (f < T)%nat ->
    plus3 (weighted mass (map (fun i => pos (f * k)%nat (site natoms i)) idx)) (scale3 M (sum3 (map (fun j => pos (f * k)%nat (site natoms j)) fw))) = C.
(** Weights [c] of the followed atoms, with what the counter-motion of a framework of [K] atoms of mass [M] adds. *)
Definition dressed (c mass : list R) (K : nat) (M : R) : list R := map (fun p => fst p + rsum c * snd p / (INR K * M)) (combine c mass).
(** Square of the weighted sum of the displacements from used frame [f] to [g], without reference to a framework. *)
Definition free_between (axes : list axis) (c : list R) (natoms k : nat) (pos : nat -> nat -> V3 R) (idx : list Z) (f g : nat) : R :=
  sqlen axes (weighted c (map (fun i => minus3 (pos (g * k)%nat (site natoms i)) (pos (f * k)%nat (site natoms i))) idx)).
