(** * SpecCond: vocabulary of C109, what reconditioning the covariance matrix does to a fit *)
From Verif Require Import Base Spec SpecFit SpecGls SpecMarkov.
From Coq Require Import Reals.
Open Scope R_scope.

(** The covariance matrix [r] gives every combination of the values at least the variance [m] gives. *)
Definition at_least_as_wide (r m : list (list R)) : Prop :=
  forall x, length x = length m -> quadratic m x <= quadratic r x.
(** [ll] is, up to a constant and for slopes that are not negative, the log density of the normal
    distribution of slope and intercept with the means [g], [c] and the covariance matrix [v]. *)
Definition normal_around (ll : list R -> Res (option R)) (g c : R) (v : list (list R)) : Prop :=
  square v 2 /\ symmetric v /\ positive_definite v /\
  exists k A B C, inverse_of [[A; B]; [B; C]] v
    /\ forall a b, 0 <= g + a -> ll [g + a; c + b] = Ok (Some (k - 1/2 * (a * a * A + 2 * (a * b) * B + b * b * C))).
(** The same for the slope alone, [v] being its variance. *)
Definition normal_around_origin (ll : list R -> Res (option R)) (g v : R) : Prop :=
  0 < v /\ exists k, forall a, 0 <= g + a -> ll [g + a] = Ok (Some (k - 1/2 * (a * a / v))).
(** The variance of the value of the line at the time [t]. *)
Definition line_variance (v : list (list R)) (t : R) : R := quadratic v [t; 1].
(** The variance of the slope. *)
Definition slope_variance (v : list (list R)) : R := matrix_entry v 0 0.
