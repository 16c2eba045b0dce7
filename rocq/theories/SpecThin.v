(** * SpecThin: vocabulary of C128, a run of which only some frames are used *)
From Verif Require Import Base Spec SpecParser SpecStats ModelParser.
From Coq Require Import Reals.
Open Scope nat_scope.

(** The trajectory [x] from used frame number [o] on, where every [k]-th frame is used. *)
Definition from_frame (k : nat) (x : nat -> nat -> V3 R) (o : nat) : nat -> nat -> V3 R := fun f b => x (o * k + f) b.
