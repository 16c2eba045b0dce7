(** * SpecHetero: vocabulary of C96, the non-Gaussian parameter and what it is used to detect *)
From Verif Require Import Base Spec SpecParser SpecStats SpecRun.
From Coq Require Import Reals.
Open Scope R_scope.

(** The displacements [l] have the second and fourth moments of isotropic Gaussian motion along the
    given axes: <c^2> = s, <c^4> = 3 s^2 along every axis, <c^2 d^2> = s^2 for different axes. *)
Definition gaussian_moments (axes : list axis) (l : list (V3 R)) : Prop := exists s, 0 < s
  /\ (forall a, In a axes -> average (map (fun v => coord v a * coord v a) l) = s)
  /\ (forall a, In a axes -> average (map (fun v => coord v a * coord v a * (coord v a * coord v a)) l) = 3 * (s * s))
  /\ (forall a b, In a axes -> In b axes -> a <> b -> average (map (fun v => coord v a * coord v a * (coord v b * coord v b)) l) = s * s).

(** The squared displacements of the atoms between used frames [f] and [g] (relative to the
    framework), and over all pairs of used frames [m] apart. *)
Definition squares_between (axes : list axis) (natoms k : nat) (pos : nat -> nat -> V3 R) (idx fw : list Z) (f g : nat) : list R :=
  map (fun i => sqlen axes (relative_displacement natoms pos fw (site natoms i) (f * k) (g * k))) idx.
Definition true_squares (axes : list axis) (natoms k : nat) (pos : nat -> nat -> V3 R) (idx fw : list Z) (T m : nat) : list R :=
  List.concat (tab (T - m) (fun j => squares_between axes natoms k pos idx fw j (j + m))).
(** The true non-Gaussian parameter over [m] used frames. *)
Definition true_ngp axes natoms k pos idx fw T m : R := non_gaussian (true_squares axes natoms k pos idx fw T m).
