(** * SpecClock: vocabulary of C103 and C104 (not of the code) *)
From Verif Require Import Base SpecDouble SpecRound.
From Coq Require Import Reals.
From Coq.Floats Require Import SpecFloat.

(** [l] and [r] correspond entry by entry, the doubles in [l] being right to [k] times 2^-52, relatively. *)
Definition all_accurate (k : R) (l : list spec_float) (r : list R) : Prop := Forall2 (accurate k) l r.
(** The times [m c] of the intervals [m]. *)
Definition clock (c : R) (intervals : list Z) : list R := map (fun m => IZR m * c)%R intervals.
(** The doubles in a list increase. *)
Definition doubles_increase (l : list spec_float) : Prop :=
  forall i j x y, (i < j)%nat -> nth_error l i = Some x -> nth_error l j = Some y -> (value x < value y)%R.
(** A positive double far from overflow and underflow. *)
Definition usual (x : spec_float) : Prop := finite_double x /\ (powerRZ 2 (-800) <= value x <= powerRZ 2 800)%R.
(** Intervals of a size met with in simulations. *)
Definition counted (l : list Z) : Prop := Forall (fun m => (1 <= m < 2 ^ 48)%Z) l.
(** A finite double of at most 2^1000. *)
Definition bounded_sample (x : spec_float) : Prop := finite_double x /\ (Rabs (value x) <= powerRZ 2 1000)%R.
(** A positive double between 2^-90 and 2^90, as are N_A, e, R, temperatures, volumes and gradients in the units used. *)
Definition everyday (x : spec_float) : Prop := finite_double x /\ (powerRZ 2 (-90) <= value x <= powerRZ 2 90)%R.
