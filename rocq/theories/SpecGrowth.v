(** * SpecGrowth: vocabulary of C117, how fast displacement curves can grow *)
From Verif Require Import Base Spec SpecParser SpecStats ModelParser ModelDiffusion ModelHdf ModelAnalyzer.
From Coq Require Import Reals.
Open Scope nat_scope.

(** The [j]-th reported value is [v], for an interval of [m] used frames (every [s]-th interval is reported). *)
Definition shown (p : Parsed R) (s : nat) (b : Boot R) (j m : nat) (v : R) : Prop :=
  nth_error (p_intervals p) (j * s) = Some (Z.of_nat m) /\ nth_error (b_n b) j = Some v /\ (exists t, nth_error (b_dt b) j = Some t).
(** The root of the reported value times the number of windows, T - m + 1. *)
Definition travel (T m : nat) (v : R) : R := sqrt (INR (T - m + 1) * v).
(** Values are not negative; the travel over [a + c] frames is at most that over [a] plus that over [c] frames; so the value for [c]
    times as many frames is at most c^2 times the value, up to the ratio of the numbers of windows. *)
Record grows_slowly (T : nat) (p : Parsed R) (s : nat) (b : Boot R) : Prop := {
  gs_nonneg : forall j m v, shown p s b j m v -> (0 <= v)%R /\ 0 < m <= T;
  gs_triangle : forall j j' j'' a c v v' v'', shown p s b j a v -> shown p s b j' c v' -> shown p s b j'' (a + c) v'' ->
      (travel T (a + c) v'' <= travel T a v + travel T c v')%R;
  gs_multiple : forall j j' c m v v', shown p s b j m v -> shown p s b j' (c * m) v' ->
      (v' <= INR c * INR c * (INR (T - m + 1) / INR (T - c * m + 1)) * v)%R }.
