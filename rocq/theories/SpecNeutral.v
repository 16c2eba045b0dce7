(** * SpecNeutral: vocabulary of C102 (not of the code) *)
From Verif Require Import Base Spec SpecParser.
From Coq Require Import Reals.
Open Scope R_scope.

(** [pos'] is the motion [pos] watched by someone who moves by [-s f]: every atom is displaced by the same vector in each frame. *)
Definition watched_from (natoms : nat) (s : nat -> V3 R) (pos pos' : nat -> nat -> V3 R) : Prop :=
  forall f b, (b < natoms)%nat -> pos' f b = plus3 (pos f b) (s f).
(** Charges of ions of two kinds. *)
Definition two_charges (zp zm : R) (kinds : list bool) : list R := map (fun c : bool => if c then zp else zm) kinds.
(** [s qa + t qb], ion by ion. *)
Definition mixed_charges (s t : R) (qa qb : list R) : list R := map (fun p => s * fst p + t * snd p) (combine qa qb).
