(** * SpecTric: vocabulary of C97, unwrapping in double precision for any cell *)
From Verif Require Import Base Spec SpecStats SpecDouble SpecUnwrap SpecRun.
From Coq Require Import Reals.
From Coq.Floats Require Import SpecFloat.
Open Scope R_scope.

(** The entry of a matrix in the row of cell vector [i] and the column of axis [j]. *)
Definition cell_entry {A} (m : M3 A) (i j : axis) : A := part (match i with AX => mr0 m | AY => mr1 m | AZ => mr2 m end) j.
(** The real vector and the real matrix that are stored. *)
Definition stored (v : V3 spec_float) : V3 R := mkV (value (vx v)) (value (vy v)) (value (vz v)).
Definition stored_cell (m : M3 spec_float) : M3 R := mkM (stored (mr0 m)) (stored (mr1 m)) (stored (mr2 m)).
(** A cell whose vectors have components of at most [M]. *)
Definition cell_below (M : R) (m : M3 spec_float) : Prop :=
  forall i j, finite_double (cell_entry m i j) /\ Rabs (value (cell_entry m i j)) <= M.
(** [y] is an inverse of the cell [m] as a computer finds it: entries of at most [kappa] / [M], the
    product with the cell is the unit matrix up to [kappa] 2^-50. *)
Definition inverse_below (kappa M : R) (y m : M3 spec_float) : Prop :=
  (forall i j, finite_double (cell_entry y i j) /\ Rabs (value (cell_entry y i j)) * M <= kappa)
  /\ forall i j, Rabs (rsum (map (fun l => value (cell_entry m i l) * value (cell_entry y l j)) all_axes) - (if Nat.eqb (axis_number i) (axis_number j) then 1 else 0))
       <= kappa * / 2 ^ 50.
(** A cell whose vectors have components of at most [M] and whose volume is at least [M]^3 / [rho]. *)
Definition compact_cell (rho M : R) (m : M3 spec_float) : Prop :=
  cell_below M m /\ M ^ 3 <= rho * Rabs (cell_volume (stored_cell m)).
(** Coordinates at most two cells away from the origin. *)
Definition near_origin (c : V3 spec_float) : Prop := forall i, finite_double (part c i) /\ Rabs (value (part c i)) <= 2.
(** The step from [c1] in the cell [l1] to [c2] in the cell [l2] is [e] in units of [l2]; [e] is not within [margin] of a
    tie between two images. *)
Definition clear_step (margin : R) (l1 l2 : M3 spec_float) (c1 c2 : V3 spec_float) : Prop :=
  exists (e : V3 R) (k : V3 Z),
  cart (stored_cell l2) e = minus3 (cart (stored_cell l2) (stored c2)) (cart (stored_cell l1) (stored c1))
  /\ forall i, Rabs (part e i) <= 8 /\ Rabs (part e i - IZR (part k i)) <= / 2 - margin.
(** The path of atom [a] given by its displacements from the first frame. *)
Definition path_of (d : Arr R) (f a : nat) : V3 R :=
  match f with O => zero3 | S t => match arr_entry d a t with Some v => v | None => zero3 end end.
(** Cartesian positions are measured in units of length. *)
Definition ones : V3 R := mkV 1 1 1.
