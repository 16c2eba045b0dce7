(** * SpecUnwrap: displacements computed in double precision *)
From Verif Require Import Base SpecStats SpecDouble.
From Coq Require Import Reals.
From Coq.Floats Require Import SpecFloat.

(** The component of a vector along an axis. *)
Definition part {A} (v : V3 A) (a : axis) : A := match a with AX => vx v | AY => vy v | AZ => vz v end.
(** The cell with orthogonal sides. *)
Definition box (side : V3 spec_float) : M3 spec_float :=
  let o := S754_zero false in
  mkM (mkV (vx side) o o) (mkV o (vy side) o) (mkV o o (vz side)).
(** A length far from overflow and underflow. *)
Definition usual_length (l : spec_float) : Prop :=
  finite_double l /\ (powerRZ 2 (-300) <= value l <= powerRZ 2 300)%R.
Definition is_integer (r : R) : Prop := exists k : Z, r = IZR k.

(** A double that is 1/l up to 8 units of 2^-53. *)
Definition nearly_reciprocal (y : spec_float) (l : R) : Prop :=
  finite_double y /\ (Rabs (value y * l - 1) <= 8 * / 2 ^ 53)%R.
Definition zero_double (y : spec_float) : Prop := finite_double y /\ value y = 0%R.
(** A computed inverse of the cell with orthogonal sides. *)
Definition nearly_inverse (m : M3 spec_float) (side : V3 spec_float) : Prop :=
  nearly_reciprocal (vx (mr0 m)) (value (vx side)) /\ zero_double (vy (mr0 m)) /\ zero_double (vz (mr0 m)) /\
  zero_double (vx (mr1 m)) /\ nearly_reciprocal (vy (mr1 m)) (value (vy side)) /\ zero_double (vz (mr1 m)) /\
  zero_double (vx (mr2 m)) /\ zero_double (vy (mr2 m)) /\ nearly_reciprocal (vz (mr2 m)) (value (vz side)).
