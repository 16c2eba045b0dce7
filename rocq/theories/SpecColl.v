(** * SpecColl: vocabulary of C85 and C86, collective displacements of the true trajectory *)
From Verif Require Import Base Spec SpecParser SpecStats ModelParser ModelDiffusion ModelHdf ModelAnalyzer SpecRun SpecPool SpecTrue.
From Coq Require Import Reals.
Open Scope Z_scope.

(** The displacements of the atoms [idx] between used frames [f] and [g], relative to the framework. *)
Definition moves (natoms k : nat) (pos : nat -> nat -> V3 R) (idx fw : list Z) (f g : nat) : list (V3 R) :=
  map (fun i => relative_displacement natoms pos fw (site natoms i) (f * k) (g * k)) idx.
(** The square of their sum, and of their sum weighted with charges [q] (always all three axes). *)
Definition total_between (axes : list axis) (natoms k : nat) (pos : nat -> nat -> V3 R) (idx fw : list Z) (f g : nat) : R :=
  sqlen axes (sum3 (moves natoms k pos idx fw f g)).
Definition charge_between (q : list R) (natoms k : nat) (pos : nat -> nat -> V3 R) (idx fw : list Z) (f g : nat) : R :=
  sqlen all_axes (sum3 (map (fun p => scale3 (fst p) (snd p)) (combine q (moves natoms k pos idx fw f g)))).
(** The average over all pairs of frames, of [T], that are [m] frames apart. *)
Definition over_time (T m : nat) (between : nat -> nat -> R) : R := average (tab (T - m) (fun j => between j (j + m)%nat)).
(** The displacement of the [b]-th followed atom. *)
Definition move_of (natoms k : nat) (pos : nat -> nat -> V3 R) (idx fw : list Z) (b f g : nat) : V3 R := nth b (moves natoms k pos idx fw f g) zero3.

(** Over many runs [es] with weights [w], different followed atoms move independently of each other:
    the average of the scalar product of their displacements vanishes for every window. *)
Definition uncorrelated_atoms {E : Type} (es : list E) (w : E -> R) (axes : list axis) (cell : M3 R) (natoms k T : nat) (x : E -> nat -> nat -> V3 R) (p : E -> Parsed R) : Prop :=
  forall f l a b, (f + l < T)%nat -> a <> b ->
    let at_ e c := move_of natoms k (fun f b => cart cell (x e f b)) (p_indices (p e)) (p_drift_indices (p e)) c f (f + l) in
    rsum (map (fun e => w e * inner axes (at_ e a) (at_ e b))%R es) = 0%R.
