(** * SpecCentreRound: centres of molecules computed in double precision (C127) *)
From Verif Require Import Base Spec SpecStats SpecDouble SpecUnwrap SpecMol ModelParser.
From Coq Require Import Reals.
From Coq.Floats Require Import SpecFloat.

(** The real masses stored as doubles. *)
Definition mass_values (w : option (list spec_float)) : option (list R) := option_map (map value) w.
(** One mass per atom, each positive and far from overflow and underflow; or none given. *)
Definition usual_masses (w : option (list spec_float)) (n : nat) : Prop :=
  match w with Some ws => length ws = n /\ Forall usual_length ws | None => True end.
(** Coordinates in or near the cell. *)
Definition in_reach (x : spec_float) : Prop := finite_double x /\ (Rabs (value x) <= 2)%R.
(** The molecule spans a little less than half the cell. *)
Definition spans_less (u : list R) : Prop := forall a b, In a u -> In b u -> (Rabs (a - b) <= 1 / 2 - 1 / 100)%R.
(** [c] lies within half a cell, less a thousandth, of every atom. *)
Definition amid (c : spec_float) (u : list R) : Prop :=
  finite_double c /\ (0 <= value c <= 1)%R /\ exists k : Z, Forall (fun x => Rabs (x - (value c + IZR k)) <= 1 / 2 - 1 / 1000)%R u.
(** A routine that computes the circular mean to three digits, as a number from 0 to 1. *)
Definition fair_circ (circ : option (list spec_float) -> list spec_float -> Res spec_float) : Prop :=
  forall w s r, circular_mean_R (mass_values w) (map value s) = Ok r ->
  exists c, circ w s = Ok c /\ finite_double c /\ (0 <= value c <= 1)%R /\ exists k : Z, (Rabs (value c - r - IZR k) <= 1 / 1000)%R.
(** Accuracy for a molecule of [n] atoms. *)
Definition centre_error (n : nat) : R := ((3 * INR n + 8) * / 2 ^ 52)%R.
(** [y] is the copy inside the cell of the position [r], up to rounding. *)
Definition nearly_wraps (n : nat) (y : spec_float) (r : R) : Prop :=
  finite_double y /\ (0 <= value y < 1)%R /\ exists k : Z, (Rabs (value y + IZR k - r) <= centre_error n)%R.
