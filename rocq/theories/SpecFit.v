(** * SpecFit: linear algebra used in the statements about fitting, independent of the model *)
From Verif Require Import Base Spec.
From Coq Require Import Reals.
Open Scope R_scope.

(** Sum of [f 0 .. f (n-1)]. *)
Fixpoint sumto (n : nat) (f : nat -> R) : R :=
  match n with O => 0 | S k => sumto k f + f k end.

(** Entry of a matrix given by its rows. *)
Definition matrix_entry (m : list (list R)) (i j : nat) : R := nth j (nth i m []) 0.
Definition vec_entry (x : list R) (i : nat) : R := nth i x 0.
(** x^T m x, and x^T m y *)
Definition bilinear (m : list (list R)) (x y : list R) : R :=
  sumto (length x) (fun i => sumto (length y) (fun j => vec_entry x i * matrix_entry m i j * vec_entry y j)).
Definition quadratic (m : list (list R)) (x : list R) : R := bilinear m x x.
Definition norm2 (x : list R) : R := sumto (length x) (fun i => vec_entry x i * vec_entry x i).

(** A square matrix with [n] rows. *)
Definition square {T} (m : list (list T)) (n : nat) : Prop := shape m n n.
Definition symmetric (m : list (list R)) : Prop :=
  forall i j, (i < length m)%nat -> (j < length m)%nat -> matrix_entry m i j = matrix_entry m j i.
Definition positive_semidefinite (m : list (list R)) : Prop :=
  forall x, length x = length m -> 0 <= quadratic m x.
(** Rows of an orthogonal matrix: V V^T = 1. *)
Definition orthogonal (v : list (list R)) : Prop :=
  forall i j, (i < length v)%nat -> (j < length v)%nat ->
    sumto (length v) (fun k => matrix_entry v i k * matrix_entry v j k) = if Nat.eqb i j then 1 else 0.
(** m = V diag(l) V^T *)
Definition is_vdvt (m v : list (list R)) (l : list R) : Prop :=
  square m (length v) /\ forall i j, (i < length v)%nat -> (j < length v)%nat ->
    matrix_entry m i j = sumto (length v) (fun k => matrix_entry v i k * vec_entry l k * matrix_entry v j k).
(** An orthonormal eigendecomposition. *)
Definition eigendecomposition (m v : list (list R)) (l : list R) : Prop :=
  square v (length m) /\ length l = length m /\ orthogonal v /\ is_vdvt m v l.

(** The condition number of a symmetric positive definite matrix is at most [c]: the quotient of the
    largest and the smallest value of x^T m x on the unit sphere is. *)
Definition condition_at_most (m : list (list R)) (c : R) : Prop :=
  exists lo hi, 0 < lo /\ hi <= c * lo
    /\ forall x, length x = length m -> lo * norm2 x <= quadratic m x <= hi * norm2 x.

Definition nondecreasing (l : list R) : Prop :=
  forall i j, (i <= j < length l)%nat -> vec_entry l i <= vec_entry l j.

(** Straight line through the abscissae: slope [g], intercept [c]; residuals model - data. *)
Definition residuals (dt n : list R) (g c : R) : list R :=
  map (fun p => g * fst p + c - snd p) (combine dt n).

(** Positive definite. *)
Definition positive_definite (m : list (list R)) : Prop :=
  forall x, length x = length m -> (exists i, (i < length x)%nat /\ vec_entry x i <> 0) -> 0 < quadratic m x.
(** [ones n]: the column of the design matrix belonging to the intercept. *)
Definition ones (n : nat) : list R := repeat 1 n.
(** Generalised least squares: the residuals are orthogonal, with respect to the weights [w], to
    the columns of the design matrix (the times, and the ones if there is an intercept). *)
Definition gls_solution (w : list (list R)) (dt n : list R) (g c : R) : Prop :=
  bilinear w dt (residuals dt n g c) = 0 /\ bilinear w (ones (length dt)) (residuals dt n g c) = 0.
Definition gls_solution_no_intercept (w : list (list R)) (dt n : list R) (g : R) : Prop :=
  bilinear w dt (residuals dt n g 0) = 0.
(** Density at residuals [r] of the centred normal distribution of dimension [length r] with
    covariance determinant [det] and inverse covariance [w]. *)
Definition normal_density (det : R) (w : list (list R)) (r : list R) : R :=
  exp (- (1/2) * quadratic w r) / sqrt ((2 * PI) ^ length r * det).

(** [r] is the position of the first entry of [dt] that is at least [start]. *)
Definition first_at_least (start : R) (dt : list R) (r : nat) : Prop :=
  exists x, nth_error dt r = Some x /\ start <= x
    /\ forall i y, (i < r)%nat -> nth_error dt i = Some y -> y < start.
Definition ascending (l : list R) : Prop :=
  forall i j a b, (i < j)%nat -> nth_error l i = Some a -> nth_error l j = Some b -> a < b.
(** The elements that are at least [start], in order. *)
Fixpoint at_least (start : R) (l : list R) : list R :=
  match l with
  | [] => []
  | x :: t => if Rle_dec start x then x :: at_least start t else at_least start t
  end.
(** All elements are at least [x]. *)
Definition all_ge (x : R) (l : list R) : Prop := Forall (fun y => x <= y) l.

(** ** Units *)
Definition angstrom_in_cm : R := / 10 ^ 8.
Definition ps_in_s : R := / 10 ^ 12.
(** A quantity given in square angstrom per picosecond, in cm^2/s. *)
Definition in_cm2_per_s (x : R) : R := x * (angstrom_in_cm * angstrom_in_cm / ps_in_s).
(** Einstein relation in [d] dimensions. *)
Definition einstein (d : nat) (slope : R) : R := slope / (2 * INR d).
(** Nernst-Einstein conductivity e^2 D / (V k_B T) in S/cm for D in cm^2/s, V in cm^3, the
    elementary charge in C and k_B = R / N_A in J/K; D is the slope of the total (collective)
    squared charge displacement. *)
Definition nernst_einstein (avogadro charge gas : R) (volume temperature D : R) : R :=
  charge * charge * D / (volume * (gas / avogadro) * temperature).
(** cubic angstrom to cm^3, S to mS *)
Definition in_cm3 (v : R) : R := v * (angstrom_in_cm * angstrom_in_cm * angstrom_in_cm).
Definition in_milli (x : R) : R := x * 1000.
