(** * SpecCovRound: vocabulary of C111 (not of the code) *)
From Verif Require Import Base SpecFit SpecDouble SpecRound SpecClock.
From Coq Require Import Reals.
From Coq.Floats Require Import SpecFloat.

(** [x] is in row [i], column [j] of the matrix. *)
Definition cell {T} (m : list (list T)) (i j : nat) (x : T) : Prop :=
  exists row, nth_error m i = Some row /\ nth_error row j = Some x.
(** The real numbers stored in a matrix of doubles. *)
Definition stored (m : list (list spec_float)) : list (list R) := map (map value) m.
(** A variance: zero, or a positive double far from overflow and underflow. *)
Definition variance_double (x : spec_float) : Prop :=
  finite_double x /\ (value x = 0 \/ powerRZ 2 (-300) <= value x <= powerRZ 2 300)%R.
(** The matrices correspond entry by entry, the doubles in [m] being right to [k] times 2^-52, relatively. *)
Definition matrix_accurate (k : R) (m : list (list spec_float)) (r : list (list R)) : Prop := Forall2 (Forall2 (accurate k)) m r.
(** The sum of a list. *)
Definition total (l : list R) : R := sumto (length l) (vec_entry l).
(** The covariance matrix of estimates with the variances [v] from [n] independent observations each. *)
Definition exact_covariance (v n : list R) (r : list (list R)) : Prop :=
  square r (length v) /\ forall i j, (i <= j < length v)%nat ->
    (matrix_entry r i j = vec_entry v i * vec_entry n i / vec_entry n j /\ matrix_entry r j i = matrix_entry r i j)%R.
