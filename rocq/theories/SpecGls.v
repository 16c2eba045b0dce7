(** * SpecGls: the normal distribution a straight-line fit samples from, independent of the model *)
From Verif Require Import Base Spec SpecFit.
From Coq Require Import Reals.
Open Scope R_scope.

(** The information matrix (inverse of the posterior covariance) of slope and intercept is
    X^T w X for the design matrix X with the columns [dt] and ones: its quadratic form. *)
Definition information (w : list (list R)) (dt : list R) (a b : R) : R :=
  a * a * bilinear w dt dt + 2 * (a * b) * bilinear w dt (ones (length dt))
  + b * b * bilinear w (ones (length dt)) (ones (length dt)).
(** Some two of the times differ. *)
Definition two_times (dt : list R) : Prop := exists s t, In s dt /\ In t dt /\ s <> t.
(** Some time is not zero. *)
Definition some_time (dt : list R) : Prop := exists t, In t dt /\ t <> 0.
(** [n] lies on the line with slope [g] and intercept [c]. *)
Definition on_line (dt n : list R) (g c : R) : Prop := Forall2 (fun t y => y = g * t + c) dt n.
(** [w] multiplied by the number [k]. *)
Definition weighted (k : R) (w : list (list R)) : list (list R) := map (map (Rmult k)) w.
(** The data with a line added. *)
Definition plus_line (a d : R) (dt n : list R) : list R :=
  map (fun p => snd p + (a * fst p + d)) (combine dt n).
(** [w] is the inverse of the matrix [m]. *)
Definition inverse_of (w m : list (list R)) : Prop :=
  forall i j, (i < length m)%nat -> (j < length m)%nat ->
    sumto (length m) (fun k => matrix_entry w i k * matrix_entry m k j) = if Nat.eqb i j then 1 else 0.
