(** * SpecTwice: vocabulary of C118, indices named more than once *)
From Verif Require Import Base Spec SpecParser SpecStats ModelParser ModelDiffusion ModelHdf ModelAnalyzer SpecRun.
From Coq Require Import Reals Permutation.
Open Scope nat_scope.

(** [l'] names every index exactly [c] times as often as [l] does. *)
Definition named_again (c : nat) (l l' : list Z) : Prop := forall z, count_occ Z.eq_dec l' z = c * count_occ Z.eq_dec l z.
(** The [j]-th entries of two reports belong to the same time; the second has [f] times the value and [h] times the variance. *)
Definition multiplied (b b' : Boot R) (j : nat) (f h : R) : Prop :=
  exists t v v' w w', nth_error (b_dt b) j = Some t /\ nth_error (b_dt b') j = Some t
    /\ nth_error (b_n b) j = Some v /\ nth_error (b_n b') j = Some v' /\ nth_error (b_v b) j = Some w /\ nth_error (b_v b') j = Some w'
    /\ v' = (f * v)%R /\ w' = (h * w)%R.
