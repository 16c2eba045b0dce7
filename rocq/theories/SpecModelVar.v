(** * SpecModelVar: fitting one factor to variances, independent of the model (C108) *)
From Verif Require Import Base Spec SpecFit.
From Coq Require Import Reals.
Open Scope R_scope.

(** dt^2 / n for every interval. *)
Definition shape_of (n_o dt : list R) : list R := map (fun p => snd p * snd p / fst p) (combine n_o dt).
Definition misfit (w v : list R) (a : R) : R := rsum (map (fun p => (a * fst p - snd p) * (a * fst p - snd p)) (combine w v)).
(** What scipy's curve_fit with bounds (0, inf) is asked for. *)
Definition best_factor (w v : list R) (a : R) : Prop := 0 <= a /\ forall a', 0 <= a' -> misfit w v a <= misfit w v a'.
Definition products (w v : list R) : R := rsum (map (fun p => fst p * snd p) (combine w v)).
(** curve_fit, called with times, variances and counts, minimises the misfit. *)
Definition fits_factor (curve_fit : list R -> list R -> list R -> Res R) : Prop :=
  forall dt v n_o a, length v = length dt -> length n_o = length dt -> curve_fit dt v n_o = Ok a -> best_factor (shape_of n_o dt) v a.
(** Times and counts are positive, variances are not negative and not all zero. *)
Definition usable (dt v n_o : list R) : Prop :=
  length v = length dt /\ length n_o = length dt /\ Forall (fun x => 0 < x) dt /\ Forall (fun x => 0 < x) n_o
  /\ Forall (fun x => 0 <= x) v /\ exists x, In x v /\ 0 < x.
