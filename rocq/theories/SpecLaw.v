(** * SpecLaw: vocabulary for C106 and C107 *)
From Verif Require Import Base ModelArrhenius.
From Coq Require Import Reals.
Open Scope R_scope.

(** Where [1/T] lies between [1/T2] (0) and [1/T1] (1). *)
Definition place (T1 T2 T : R) : R := (/ T - / T2) / (/ T1 - / T2).
(** The slope of the Arrhenius plot between two temperatures, as an energy. *)
Definition apparent_energy (k : R) (D : R -> R) (T1 T2 : R) : R := k * (ln (D T2) - ln (D T1)) / (/ T1 - / T2).
(** A parameter vector strictly between the bounds. *)
Definition between_bounds (x : R) (b : par_bound R) : Prop := fst b < x /\ match snd b with Some u => x < u | None => True end.
Definition sampled_within (s : R * R * R) (bounds : list (par_bound R)) : Prop :=
  Forall2 between_bounds [fst (fst s); snd (fst s); snd s] bounds.
