(** * SpecRound: mean squared displacements computed in double precision *)
From Verif Require Import Base Spec SpecStats SpecDouble SpecUnwrap.
From Coq Require Import Reals Permutation.
From Coq.Floats Require Import SpecFloat.

(** The real numbers stored in an array of doubles. *)
Definition values3 (v : V3 spec_float) : V3 R := mkV (value (vx v)) (value (vy v)) (value (vz v)).
Definition values (d : Arr spec_float) : Arr R := mkArr (a_obs d) (map (map values3) (a_rows d)).
(** Zero, or far from overflow and underflow. *)
Definition moderate (x : spec_float) : Prop :=
  finite_double x /\ (value x = 0 \/ powerRZ 2 (-300) <= Rabs (value x) <= powerRZ 2 300)%R.
Definition moderate_displacements (d : Arr spec_float) : Prop :=
  Forall (Forall (fun v => forall i, moderate (part v i))) (a_rows d).
(** [sum_of h l s]: [s] is obtained by adding up the list [l] with rounded additions in some order
    and grouping, no number passing through more than [h] additions. *)
Inductive sum_of : nat -> list spec_float -> spec_float -> Prop :=
| by_none h : sum_of h [] (S754_zero false)
| by_one h x : sum_of h [x] x
| by_plus h l l' s s' : sum_of h l s -> sum_of h l' s' -> sum_of (S h) (l ++ l')%list (SFadd 53 1024 s s')
| by_order h l l' s : Permutation l l' -> sum_of h l s -> sum_of h l' s.
(** A computed squared length along some axes. *)
Definition computed_square (axes : list axis) (v : V3 spec_float) (x : spec_float) : Prop :=
  sum_of 3 (map (fun a => SFmul 53 1024 (part v a) (part v a)) axes) x.
(** [m] is [r] up to [k] times 2^-52, relatively. *)
Definition accurate (k : R) (m : spec_float) (r : R) : Prop :=
  finite_double m /\ (Rabs (value m - r) <= k * / 2 ^ 52 * r)%R.

(** Zero, or far enough from overflow and underflow for eighth powers. *)
Definition tame (x : spec_float) : Prop :=
  finite_double x /\ (value x = 0 \/ powerRZ 2 (-100) <= Rabs (value x) <= powerRZ 2 100)%R.
Definition tame_displacements (d : Arr spec_float) : Prop :=
  Forall (Forall (fun v => forall i, tame (part v i))) (a_rows d).
