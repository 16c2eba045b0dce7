(** * SpecOnsager: vocabulary of C125, conductivity as a sum over pairs of ions *)
From Verif Require Import Base Spec SpecParser SpecStats SpecPersist.
From Coq Require Import Reals.
Open Scope R_scope.

(** How far ions [a] and [b] move together in the observations of one interval, on average. *)
Definition together (d : Arr R) (a b : nat) : R :=
  average (tab (a_obs d) (fun t => scalar all_axes (nth a (at_time d t) zero3) (nth b (at_time d t) zero3))).
(** The sum over pairs of ions [a], [b] of charge times charge times [L a b]. *)
Definition over_pairs (n : nat) (q q' : list R) (L : nat -> nat -> R) : R :=
  rsum (map (fun a => rsum (map (fun b => nth a q 0 * nth b q' 0 * L a b) (seq 0 n))) (seq 0 n)).
Definition add_charges (q q' : list R) : list R := map (fun p => fst p + snd p) (combine q q').
Definition subtract_charges (q q' : list R) : list R := map (fun p => fst p - snd p) (combine q q').
