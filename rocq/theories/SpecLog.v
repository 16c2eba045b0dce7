(** * SpecLog: np.geomspace in double precision (C49, C50 with logarithmic spacing) *)
From Verif Require Import Base.
From Coq Require Import Reals.
Open Scope R_scope.

(** The i-th of [n] points in geometric progression from [a] to [b]. *)
Definition geometric_point (a b : Z) (n i : nat) : R := IZR a * Rpower (IZR b / IZR a) (INR i / INR (n - 1)).
(** What is assumed of `np.geomspace(a, b, n, dtype=int)`: both ends are exact, as NumPy stores the
    given end points themselves; every other entry is the integer part of a number within
    2^-44 of the exact point in relative terms. Sizes are limited to 2^40. *)
Definition accurate_geomspace (g : Z -> Z -> Z -> Res (list Z)) : Prop :=
  forall a b n, (1 <= a <= b)%Z -> (b < 2 ^ 40)%Z -> (n < 2 ^ 42)%Z ->
  if (n <? 0)%Z then exists e, g a b n = Raise e
  else exists l, g a b n = Ok l /\ length l = Z.to_nat n
    /\ forall i z, nth_error l i = Some z ->
       (i = 0%nat -> z = a)
       /\ ((0 < i)%nat -> (S i = length l)%nat -> z = b)
       /\ ((0 < i)%nat -> (S i < length l)%nat ->
           exists x : R, Rabs (x - geometric_point a b (length l) i) <= / 2 ^ 44 * geometric_point a b (length l) i
                         /\ IZR z <= x < IZR z + 1).
