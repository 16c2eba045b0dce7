(** * SpecLikely: vocabulary of C122, the likelihood in double precision *)
From Verif Require Import Base SpecDouble SpecRound Spec.
From Coq Require Import Reals.
From Coq.Floats Require Import SpecFloat.

(** [a^T w b]. *)
Definition form (w : list (list R)) (a b : list R) : R :=
  rsum (zip_with Rmult a (map (fun row => rsum (zip_with Rmult row b)) w)).
(** Distances of the data [y] from the line with gradient [g] and intercept [c] at the times [t]. *)
Definition distances (g c : R) (t y : list R) : list R := zip_with (fun t y => g * t + c - y)%R t y.
(** The sizes of the numbers these distances are computed from. *)
Definition sizes (g c : R) (t y : list R) : list R := zip_with (fun t y => Rabs (g * t) + Rabs c + Rabs y)%R t y.
(** The Gaussian log likelihood of the line ([ld]: the logarithm of the determinant and of 2 pi). *)
Definition gaussian_log (g c : R) (t y : list R) (ld : R) (w : list (list R)) : R :=
  (- / 2 * (ld + form w (distances g c t y) (distances g c t y)))%R.
(** 2^-52 for every rounding, in units of the sum of the sizes of all terms. *)
Definition allowed_error (g c : R) (t y : list R) (ld : R) (w : list (list R)) : R :=
  ((2 * INR (length t) + 15) * / 2 ^ 52 * (/ 2 * (Rabs ld + form (map (map Rabs) w) (sizes g c t y) (sizes g c t y))))%R.
(** Input far from overflow and underflow: [n] times and data, an n by n matrix. *)
Record usual_fit (g c : spec_float) (t y : list spec_float) (ld : spec_float) (w : list (list spec_float)) : Prop := {
  uf_line : tame g /\ tame c;
  uf_times : Forall tame t;
  uf_data : Forall tame y;
  uf_const : moderate ld;
  uf_weights : Forall (Forall moderate) w;
  uf_length : length y = length t;
  uf_square : length w = length t /\ Forall (fun row => length row = length t) w;
  uf_number : (Z.of_nat (length t) <= 2 ^ 20)%Z }.
(** [v] is computed as the code does, the sums of the two matrix products being taken in any order. *)
Definition computed_likelihood (g c : spec_float) (t y : list spec_float) (ld : spec_float) (w : list (list spec_float)) (v : spec_float) : Prop :=
  exists d u q,
    d = zip_with (fun t y => SFsub 53 1024 (SFadd 53 1024 (SFmul 53 1024 g t) c) y) t y
    /\ Forall2 (fun row s => sum_of (length t) (zip_with (SFmul 53 1024) row d) s) w u
    /\ sum_of (length t) (zip_with (SFmul 53 1024) d u) q
    /\ v = SFmul 53 1024 (S754_finite true 4503599627370496 (-53)) (SFadd 53 1024 ld q).
