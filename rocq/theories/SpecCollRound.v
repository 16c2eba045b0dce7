(** * SpecCollRound: collective displacements computed in double precision (C98) *)
From Verif Require Import Base Spec SpecStats ModelDiffusion SpecDouble SpecUnwrap SpecRound SpecChain.
From Coq Require Import Reals.
From Coq.Floats Require Import SpecFloat.

(** Every component is a double of at most 2^[e] in size. *)
Definition components_below (e : Z) (d : Arr spec_float) : Prop :=
  Forall (Forall (fun v => forall i, finite_double (part v i) /\ (Rabs (value (part v i)) <= powerRZ 2 e)%R)) (a_rows d).
(** At least one atom, at most 2^20 of them, at most 2^50 observations each. *)
Definition countable (d : Arr spec_float) : Prop :=
  (0 < length (a_rows d))%nat /\ (Z.of_nat (length (a_rows d)) <= 2 ^ 20)%Z /\ (Z.of_nat (a_obs d) <= 2 ^ 50)%Z.
(** The real charges stored. *)
Definition charge_values (q : charge spec_float) (natoms : nat) : list R :=
  match q with QScalar c => repeat (value c) natoms | QArray l => map value l end.
Definition charge_doubles (q : charge spec_float) : list spec_float := match q with QScalar c => [c] | QArray l => l end.
(** Each displacement times the charge of its atom. *)
Definition charged (q : list R) (d : Arr R) : Arr R :=
  mkArr (a_obs d) (map (fun p => map (scale3 (fst p)) (snd p)) (combine q (a_rows d))).
(** [r] is the mean square [e] of a sum over [atoms] atoms, averaged over [obs] windows; [single] is the mean square of
    the summands. *)
Definition sum_accurate (obs atoms : nat) (single : R) (r : spec_float) (e : R) : Prop :=
  finite_double r /\ (0 <= value r)%R
  /\ (Rabs (sqrt (value r) - sqrt e) <= (INR obs + 8) * / 2 ^ 52 * sqrt e
        + 2 * INR atoms * (INR atoms + 1) * / 2 ^ 52 * sqrt single + powerRZ 2 (-535))%R.
(** Mean squared sum of the displacements of the atoms [ids] over all pairs of frames [m] apart among the frames 0..n. *)
Definition exact_mstd (axes : list axis) (side : V3 R) (x : nat -> nat -> V3 R) (fw ids : list nat) (n m : nat) : R :=
  average (tab (n - m + 1) (fun o => sqlen axes (sum3 (map (moved_rel side x fw o m) ids)))).
(** [r] is the mean square [e] of a sum over [atoms] atoms whose displacements, of mean square [single], are known up to [d]. *)
Definition total_accurate (obs atoms : nat) (d single : R) (r : spec_float) (e : R) : Prop :=
  finite_double r /\ (0 <= value r)%R
  /\ (Rabs (sqrt (value r) - sqrt e) <= (INR obs + 8) * / 2 ^ 52 * sqrt e + 2 * (INR atoms * INR atoms) * / 2 ^ 52 * sqrt single
        + 2 * INR atoms * d)%R.
