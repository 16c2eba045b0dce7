(** * PropertiesRun: C58, the posterior samples kept by a fit *)
From Verif Require Import Base Spec SpecParser SpecStats SpecFit ModelParser ModelDiffusion ModelHdf ModelAnalyzer
  ProofsFit ProofsFit2 ProofsSampler SpecRun.
From Coq Require Import Reals Lra.
Open Scope Z_scope.

(** ** C58 *)
(** How many samples a fit keeps, and that gradient, intercept and coefficient are aligned with the
    rows of the flattened chain. *)
Theorem C58_sample_count : forall {G Seed RS} (X : Ext R G Seed RS) b g (c : call (RS := RS)) b' g',
  let p := settings c in
  noise_rows X -> 0 <= l_n_walkers p -> 0 <= l_n_samples p -> 0 <= l_n_burn p -> 1 <= l_thin p ->
  run_call X b g c = (b', g', Ok tt) ->
  exists chain gr d, b_flatchain b' = Some chain /\ b_gradient b' = Some gr /\ coefficient c b' = Some d
    /\ Z.of_nat (length chain) = l_n_walkers p * (l_n_samples p / l_thin p)
    /\ length gr = length chain /\ length d = length chain
    /\ (forall i x, nth_error gr i = Some x -> exists row, nth_error chain i = Some row /\ nth_error row 0 = Some x)
    /\ (l_fit_intercept p = true -> exists ic, b_intercept b' = Some ic /\ length ic = length chain
         /\ forall i x, nth_error ic i = Some x -> exists row, nth_error chain i = Some row /\ nth_error row 1 = Some x).
Proof. exact @C58_count_proof. Qed.
Print Assumptions C58_sample_count.
(** Which samples are kept: with burn-in d and thinning t the fit keeps, of the chain it would have
    kept without them, the steps d+t-1, d+2t-1, ...; each step has one row per walker. *)
Theorem C58_burn_in_and_thinning : forall {G Seed RS} (X : Ext R G Seed RS) b (p : GLSParams R RS) s d t g b1 g1 b2 g2,
  noise_rows X -> 0 <= s -> 0 <= d -> 1 <= t ->
  bootstrap_GLS X b (with_lengths p s d t) g = (b1, g1, Ok tt) ->
  bootstrap_GLS X b (with_lengths p (s + d) 0 1) g = (b2, g2, Ok tt) ->
  exists flat full, b_flatchain b1 = Some flat /\ b_flatchain b2 = Some full
    /\ let w := Z.to_nat (l_n_walkers p) in
       length flat = (w * Z.to_nat (s / t))%nat /\ length full = (w * Z.to_nat (s + d))%nat
       /\ forall j i, (j < Z.to_nat (s / t))%nat -> (i < w)%nat ->
          nth_error flat (j * w + i) = nth_error full ((Z.to_nat d + (j + 1) * Z.to_nat t - 1) * w + i).
Proof. exact @C58_burn_proof. Qed.
Print Assumptions C58_burn_in_and_thinning.
(** A fit of two points with 4 walkers, 6 samples, burn-in 2, thinning 3: two steps of 4 rows. *)
Example C58_example : exists b1 b2 chain,
  bootstrap_GLS (demo_ext 1 1) demo_data (with_lengths (demo_fit 1 true) 6 2 3) 0%nat = (b1, 8%nat, Ok tt)
  /\ bootstrap_GLS (demo_ext 1 1) demo_data (with_lengths (demo_fit 1 true) (6 + 2) 0 1) 0%nat = (b2, 8%nat, Ok tt)
  /\ b_flatchain b1 = Some chain /\ length chain = 8%nat /\ noise_rows (demo_ext 1 1).
Proof. exact C58_example_proof. Qed.
