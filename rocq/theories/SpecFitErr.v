(** * SpecFitErr: vocabulary of C100, how far a fitted line is from the true one *)
From Verif Require Import Base Spec SpecFit SpecGls SpecMarkov SpecLong.
From Coq Require Import Reals.
Open Scope R_scope.

(** Sum of the squares of the errors of the data [y] about the line with slope [g] and intercept [c]. *)
Definition misfit (dt y : list R) (g c : R) : R :=
  sumto (length dt) (fun i => (vec_entry y i - (g * vec_entry dt i + c)) * (vec_entry y i - (g * vec_entry dt i + c))).
(** Sum of the squares of the distances of two lines at the fitted times. *)
Definition between_lines (dt : list R) (g c g' c' : R) : R :=
  sumto (length dt) (fun i => ((g * vec_entry dt i + c) - (g' * vec_entry dt i + c')) * ((g * vec_entry dt i + c) - (g' * vec_entry dt i + c'))).
(** How far the times are spread: the sum of their squared distances from their average; from 0. *)
Definition variation (dt : list R) : R :=
  sumto (length dt) (fun i => (vec_entry dt i - average dt) * (vec_entry dt i - average dt)).
Definition variation_origin (dt : list R) : R := norm2 dt.
(** The weights [w] are a symmetric matrix of [n] rows whose condition number is at most [k]. *)
Definition sound_weights (w : list (list R)) (n : nat) (k : R) : Prop := square w n /\ symmetric w /\ condition_at_most w k.
(** The true displacements over [ms] frames lie on a line. *)
Definition straight (M : nat -> R) (ms : list nat) (dt : list R) (g c : R) : Prop :=
  length ms = length dt /\ forall i, (i < length dt)%nat -> M (nth i ms O) = g * vec_entry dt i + c.
(** The error allowed for all fitted values together. *)
Definition allowances (T : nat) (ms : list nat) (gap : nat) (M : nat -> R) (s2 : R) : R :=
  sumto (length ms) (fun i => allowance T (nth i ms O) gap M s2).
