(** * SpecPersist: vocabulary of C124, steps with memory *)
From Verif Require Import Base Spec SpecParser SpecStats SpecTrue SpecColl.
From Coq Require Import Reals.
Open Scope R_scope.

Definition scalar (axes : list axis) (a b : V3 R) : R := rsum (map (fun d => coord a d * coord b d) axes).
(** The step after used frame [f] times the step after used frame [g]: for single atoms, on average over
    the followed atoms; for their sum; and for their sum weighted with charges. *)
Definition step_square (axes : list axis) (natoms k : nat) (pos : nat -> nat -> V3 R) (idx fw : list Z) (f g : nat) : R :=
  average (map (fun i => scalar axes (relative_displacement natoms pos fw (site natoms i) (f * k) (S f * k))
                                     (relative_displacement natoms pos fw (site natoms i) (g * k) (S g * k))) idx).
Definition step_total (axes : list axis) (natoms k : nat) (pos : nat -> nat -> V3 R) (idx fw : list Z) (f g : nat) : R :=
  scalar axes (sum3 (moves natoms k pos idx fw f (S f))) (sum3 (moves natoms k pos idx fw g (S g))).
Definition charge_step (q : list R) (natoms k : nat) (pos : nat -> nat -> V3 R) (idx fw : list Z) (f : nat) : V3 R :=
  sum3 (map (fun p => scale3 (fst p) (snd p)) (combine q (moves natoms k pos idx fw f (S f)))).
Definition step_charge (q : list R) (natoms k : nat) (pos : nat -> nat -> V3 R) (idx fw : list Z) (f g : nat) : R :=
  scalar all_axes (charge_step q natoms k pos idx fw f) (charge_step q natoms k pos idx fw g).
(** The mean square of the sum of [m] steps whose products [j] frames apart are [C j] on average. *)
Definition with_memory (C : nat -> R) (m : nat) : R := INR m * C 0%nat + 2 * rsum (map (fun j => INR (m - j) * C j) (seq 1 (m - 1))).
(** Slope and offset of the line it follows once [m] is longer than the memory, [J - 1] frames. *)
Definition memory_slope (C : nat -> R) (J : nat) : R := C 0%nat + 2 * rsum (map C (seq 1 (J - 1))).
Definition memory_offset (C : nat -> R) (J : nat) : R := 2 * rsum (map (fun j => INR j * C j) (seq 1 (J - 1))).
