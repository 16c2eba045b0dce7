(** * PropertiesBayes: C73 the Bayesian bootstrap

    NumPy's generators are arbitrary, except that rows of Dirichlet weights are non-negative and add
    up to 1 and a multinomial row of one draw has its 1 at one place. *)
From Verif Require Import Base Spec ModelBayes SpecBayes ProofsBayes.
From Coq Require Import Reals.
Open Scope Z_scope.

(** ** C73 *)
Theorem C73_weighted_means : forall G (dirichlet multinomial : G -> list R -> nat -> list (list R) * G),
  draws_rows weights_of dirichlet -> draws_rows one_place multinomial ->
  forall g l (ns : R) n r g', l <> [] -> bayesian_bootstrap dirichlet multinomial g l ns n = Ok (r, g') ->
  exists w, length w = n /\ Forall (weights_of (length l)) w /\ r = map (fun row => weighted row l) w.
Proof. exact @C73_means_proof. Qed.
Print Assumptions C73_weighted_means.
Theorem C73_within_data : forall G (dirichlet multinomial : G -> list R -> nat -> list (list R) * G),
  draws_rows weights_of dirichlet -> draws_rows one_place multinomial ->
  forall g l (ns : R) n r g' lo hi, l <> [] -> bayesian_bootstrap dirichlet multinomial g l ns n = Ok (r, g') ->
  Forall (fun x => lo <= x <= hi)%R l -> length r = n /\ Forall (fun x => lo <= x <= hi)%R r.
Proof. exact @C73_range_proof. Qed.
Print Assumptions C73_within_data.
(** One effective sample, or fewer: every mean is one of the values. *)
Theorem C73_one_sample : forall G (dirichlet multinomial : G -> list R -> nat -> list (list R) * G),
  draws_rows one_place multinomial ->
  forall g l (ns : R) n r g', (2 <= length l)%nat -> (ns <= 1)%R ->
  bayesian_bootstrap dirichlet multinomial g l ns n = Ok (r, g') -> Forall (fun x => In x l) r.
Proof. exact @C73_one_sample_proof. Qed.
Print Assumptions C73_one_sample.
(** Change of unit and origin, with the same random numbers. *)
Theorem C73_affine : forall G (dirichlet multinomial : G -> list R -> nat -> list (list R) * G),
  draws_rows weights_of dirichlet -> draws_rows one_place multinomial ->
  forall g l (ns : R) n r g' a b, l <> [] -> bayesian_bootstrap dirichlet multinomial g l ns n = Ok (r, g') ->
  bayesian_bootstrap dirichlet multinomial g (map (fun x => a * x + b)%R l) ns n = Ok (map (fun x => a * x + b)%R r, g').
Proof. exact @C73_affine_proof. Qed.
Print Assumptions C73_affine.
(** A single value always fails, anything else runs. *)
Theorem C73_single_value : forall G (dirichlet multinomial : G -> list R -> nat -> list (list R) * G) g (x ns : R) n,
  bayesian_bootstrap dirichlet multinomial g [x] ns n = Raise ZeroDivisionError.
Proof. exact @C73_single_proof. Qed.
Print Assumptions C73_single_value.
Theorem C73_runs : forall G (dirichlet multinomial : G -> list R -> nat -> list (list R) * G) g l (ns : R) n,
  length l <> 1%nat -> exists r g', bayesian_bootstrap dirichlet multinomial g l ns n = Ok (r, g').
Proof. exact @C73_runs_proof. Qed.
Print Assumptions C73_runs.
Example C73_example : draws_rows weights_of equal_weights /\ draws_rows one_place first_place
  /\ bayesian_bootstrap equal_weights first_place tt [1; 3]%R 2%R 2 = Ok ([2; 2]%R, tt)
  /\ bayesian_bootstrap equal_weights first_place tt [1; 3]%R 1%R 2 = Ok ([1; 1]%R, tt).
Proof. exact C73_example_proof. Qed.
