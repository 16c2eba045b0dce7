(** * SpecDouble: IEEE binary64 numbers and their values *)
From Verif Require Import Base.
From Coq Require Import Reals.
From Coq.Floats Require Import SpecFloat.

(** A double: mantissa of at most 53 bits, exponents of binary64. *)
Definition is_double (x : spec_float) : Prop := valid_binary 53 1024 x = true.
Definition finite_double (x : spec_float) : Prop :=
  is_double x /\ match x with S754_zero _ | S754_finite _ _ _ => True | _ => False end.
(** The real number a finite double stands for. *)
Definition value (x : spec_float) : R :=
  match x with
  | S754_finite s m e => ((if s then IZR (Zneg m) else IZR (Zpos m)) * powerRZ 2 e)%R
  | _ => 0%R
  end.
(** [x] is a double closest to the real number [r], as for a decimal literal in Python. *)
Definition nearest_double (x : spec_float) (r : R) : Prop :=
  finite_double x /\ forall y, finite_double y -> (Rabs (value x - r) <= Rabs (value y - r))%R.
Definition nondecreasing (l : list Z) : Prop :=
  forall i j x y, (i <= j)%nat -> nth_error l i = Some x -> nth_error l j = Some y -> x <= y.
Definition strictly_increasing (l : list Z) : Prop :=
  forall i j x y, (i < j)%nat -> nth_error l i = Some x -> nth_error l j = Some y -> x < y.
