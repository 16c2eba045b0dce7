(** * SpecMol: periodic positions, molecules and their centres *)
From Verif Require Import Base Spec ModelParser SpecParser.
From Coq Require Import Reals Sorting.

(** [y] is the copy of [x] inside the cell, in fractional coordinates. *)
Definition wraps_to (y x : R) : Prop := (0 <= y < 1)%R /\ exists k : Z, x = (y + IZR k)%R.
(** The same atoms, each possibly moved by whole cells. *)
Definition images (a b : list R) : Prop := Forall2 (fun x y => exists k : Z, y = (x + IZR k)%R) a b.
(** Weights of the atoms: the masses, or one each. *)
Definition weights_of (w : option (list R)) (n : nat) : list R := match w with Some ws => ws | None => repeat 1%R n end.
Definition weighted (f : R -> R) (ws u : list R) : R := rsum (map (fun p => fst p * f (snd p))%R (combine ws u)).
Definition centre_of_mass (ws u : list R) : R := (weighted (fun x => x) ws u / rsum ws)%R.
(** The molecule spans less than half the cell. *)
Definition narrow (u : list R) : Prop := forall a b, In a u -> In b u -> (Rabs (a - b) < 1 / 2)%R.
(** The mean direction on the circle exists. *)
Definition has_direction (ws s : list R) : Prop :=
  weighted (fun x => cos (2 * PI * x)) ws s <> 0%R \/ weighted (fun x => sin (2 * PI * x)) ws s <> 0%R.

(** ** Three axes *)
Definition on_axes (P : list R -> Prop) (u : list (V3 R)) : Prop := P (map vx u) /\ P (map vy u) /\ P (map vz u).
Definition wraps3 (y x : V3 R) : Prop := wraps_to (vx y) (vx x) /\ wraps_to (vy y) (vy x) /\ wraps_to (vz y) (vz x).
Definition image3 (x y : V3 R) : Prop := exists k : V3 Z, y = plus3 x (ivec k).
Definition com3 (ws : list R) (u : list (V3 R)) : V3 R :=
  mkV (centre_of_mass ws (map vx u)) (centre_of_mass ws (map vy u)) (centre_of_mass ws (map vz u)).
(** The masses of one molecule are usable: one per atom, all positive. *)
Definition positive_masses (masses : option (list R)) : Prop :=
  match masses with Some ws => Forall (fun w => 0 < w)%R ws | None => True end.
Definition nonzero_masses (masses : option (list R)) : Prop :=
  match masses with Some ws => rsum ws <> 0%R | None => True end.

(** The atoms of molecule [mol] (numbered from one) in a frame. *)
Definition members (frame : list (V3 R)) (mol : list Z) (atoms : list (V3 R)) : Prop :=
  Forall2 (fun i p => valid_site (length frame) (i - 1) /\ nth_error frame (site (length frame) (i - 1)) = Some p) mol atoms.
(** The [j]-th entry of frame [f]. *)
Definition at_frame (coords : list (list (V3 R))) (f j : nat) : option (V3 R) := entry coords f j.

(** The framework atoms (numbered from zero) used with molecules: the given list (numbered from
    one), or all atoms that are in no molecule. *)
Definition molecule_framework (natoms : nat) (indices : list (list Z)) (given : option (list Z)) (fw : list Z) : Prop :=
  match given with
  | Some l => fw = map (fun i => i - 1)%Z l
  | None => StronglySorted Z.lt fw
            /\ forall i, In i fw <-> ((0 <= i < Z.of_nat natoms)%Z /\ forall mol, In mol indices -> ~ In (i + 1)%Z mol)
  end.
(** Positions of the diffusing centres followed by the framework atoms; [x f a] are the unwrapped
    positions of the atoms. *)
Definition centres (natoms : nat) (masses : option (list R)) (indices : list (list Z)) (fw : list Z)
    (x : nat -> nat -> V3 R) (f b : nat) : V3 R :=
  match nth_error indices b with
  | Some mol => com3 (weights_of masses (length mol)) (map (fun i => x f (site natoms (i - 1))) mol)
  | None => match nth_error fw (b - length indices) with Some i => x f (site natoms i) | None => zero3 end
  end.

(** The atoms are chosen as molecules. *)
Definition molecule_selection (a : Params R) (indices : list (list Z)) : Prop := a_specie a = None /\ a_specie_indices a = SIMol indices.
Definition given_framework (framework : pyseq Z) : option (list Z) := match framework with PyList l => Some l | _ => None end.
(** Numbers of the centres and of the framework atoms among the positions [centres]. *)
Definition centre_ids (indices : list (list Z)) : list Z := map Z.of_nat (seq 0 (length indices)).
Definition framework_ids (indices : list (list Z)) (fw : list Z) : list Z := map Z.of_nat (seq (length indices) (length fw)).

(** The run [p] reports the displacements of the true centres of mass relative to the framework:
    every interval of [m] used frames is reported with time [m * unit] (see [reports_interval]). *)
Record reports_centres (cell : M3 R) (n k natoms : nat) (masses : option (list R)) (indices : list (list Z)) (fw : list Z)
    (x : nat -> nat -> V3 R) (unit : R) (p : Parsed R) : Prop := {
  rc_centres : p_indices p = centre_ids indices;
  rc_framework : p_drift_indices p = framework_ids indices fw;
  rc_intervals : forall q arr, nth_error (p_disp_3d p) q = Some arr -> exists m : nat, (0 < m <= kept n k)%nat
     /\ nth_error (p_intervals p) q = Some (Z.of_nat m)
     /\ nth_error (p_delta_t p) q = Some (INR m * unit)%R
     /\ reports_interval (length indices + length fw) (kept n k) k (fun f b => cart cell (centres natoms masses indices fw x f b))
          (p_indices p) (p_drift_indices p) m arr }.
