(** * PropertiesCovRound: C111, the covariance matrix in double precision *)
From Verif Require Import Base SpecFit SpecDouble SpecRound SpecClock SpecCovRound ModelParser ModelDiffusion ProofsFloat ProofsCovRound.
From Coq Require Import Reals.
From Coq.Floats Require Import SpecFloat.
Open Scope nat_scope.

(** ** C111
    [v] are the variances, [n] the numbers of independent observations, as doubles. *)
(** When no interval is left out, the number of independent observations of the interval of m steps is the double nearest to
    (atoms followed) * (longest interval) / m. *)
Theorem C111_counts : forall geo disp idx didx (ts : spec_float) ss o p,
  parser_init geo disp idx didx ts ss o = Ok p -> counted (p_intervals p) ->
  length (p_n_o p) = length (p_intervals p) ->
  forall k m d x, nth_error (p_intervals p) k = Some m -> nth_error (p_disp_3d p) k = Some d -> nth_error (p_n_o p) k = Some x ->
    (Z.of_nat (length (a_rows d)) * last (p_intervals p) 0 < 2 ^ 53)%Z -> (Z.of_nat (length (a_rows d)) < 2 ^ 53)%Z ->
    nearest_double x (INR (length (a_rows d)) * IZR (last (p_intervals p) 0%Z) / IZR m).
Proof. exact C111_counts_proof. Qed.
Print Assumptions C111_counts.
(** The matrix is exactly symmetric, whatever the doubles. *)
Theorem C111_symmetric : forall (v n : list spec_float) m i j x,
  populate_covariance_matrix v n = Ok m -> cell m i j x -> cell m j i x.
Proof. exact C111_symmetric_proof. Qed.
Print Assumptions C111_symmetric.
(** The variances are on the diagonal without any rounding. *)
Theorem C111_diagonal : forall (v n : list spec_float) m i x y,
  populate_covariance_matrix v n = Ok m -> Forall everyday n ->
  cell m i i x -> nth_error v i = Some y -> bounded_sample y -> finite_double x /\ value x = value y.
Proof. exact C111_diagonal_proof. Qed.
Print Assumptions C111_diagonal.
(** Every entry is the one of the exact matrix to 2 times 2^-52; nothing overflows or underflows. *)
Theorem C111_entries : forall (v n : list spec_float) m,
  populate_covariance_matrix v n = Ok m -> Forall everyday n -> Forall variance_double v ->
  exists r, exact_covariance (map value v) (map value n) r /\ matrix_accurate 2 m r.
Proof. exact C111_entries_proof. Qed.
Print Assumptions C111_entries.
(** If the exact matrix is positive semidefinite, no eigenvalue of the computed one is below -2^-51 times the sum of the variances. *)
Theorem C111_semidefinite : forall (v n : list spec_float) m r x,
  populate_covariance_matrix v n = Ok m -> Forall everyday n -> Forall variance_double v ->
  exact_covariance (map value v) (map value n) r -> positive_semidefinite r -> length x = length v ->
  (- (/ 2 ^ 51 * total (map value v)) * norm2 x <= quadratic (stored m) x)%R.
Proof. exact C111_semidefinite_proof. Qed.
Print Assumptions C111_semidefinite.
(** The same for the matrix of a fit (with model=False) before it is reconditioned. *)
Theorem C111_fit : forall G Seed RS (X : Ext spec_float G Seed RS) b (p : GLSParams spec_float RS) r m res,
  generate_covariance_matrix X b p r = (Some m, res) -> l_model p = false ->
  Forall everyday (b_n_o b) -> Forall variance_double (b_v b) ->
  exists e, exact_covariance (map value (skipn r (b_v b))) (map value (skipn r (b_n_o b))) e /\ matrix_accurate 2 m e /\ (forall i j x, cell m i j x -> cell m j i x)
    /\ (positive_semidefinite e -> forall x, length x = length (skipn r (b_v b)) -> (- (/ 2 ^ 51 * total (map value (skipn r (b_v b)))) * norm2 x <= quadratic (stored m) x)%R).
Proof. exact @C111_fit_proof. Qed.
Print Assumptions C111_fit.
(** Variances 1 and 6 with 7 and 3 observations: the entry 7/3 is rounded. *)
Example C111_example : Forall everyday pair_n /\ Forall variance_double pair_v
  /\ (exists m x, populate_covariance_matrix pair_v pair_n = Ok m /\ cell m 0 1 x /\ x = decimal 7 3 /\ value x <> (7 / 3)%R)
  /\ exists r, exact_covariance (map value pair_v) (map value pair_n) r /\ positive_semidefinite r.
Proof. exact C111_example_proof. Qed.
