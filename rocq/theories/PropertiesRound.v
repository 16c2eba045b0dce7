(** * PropertiesRound: C79, C80

    The statistics run in IEEE double precision here. *)
From Verif Require Import Base ModelParser ModelDiffusion Spec SpecStats SpecDouble SpecUnwrap SpecRun SpecRound ProofsRound ProofsSpread.
From Coq Require Import Reals Lra Lia.
From Coq.Floats Require Import SpecFloat.
Open Scope Z_scope.

(** ** C79: every reported mean squared displacement is right to (N + 5) 2^-52, relatively, where
    N is the number of displacements averaged. No displacement component may be closer to zero
    than 2^-300 (unless it is zero) or larger than 2^300. *)
Theorem C79_reported_means :
  forall (G Seed RS : Type) (X : Ext spec_float G Seed RS) u dts disps n_o g b g',
  0 < u_sub_sample_dt u -> u_block u = false ->
  Forall moderate_displacements disps -> Forall (fun d => Z.of_nat (length (entries d)) <= 2 ^ 50) disps ->
  msd_bootstrap X u dts disps n_o g = Ok (b, g') ->
  exists axes used, names (pystr_text (u_dimension u)) axes /\ sub_sample (Z.to_nat (u_sub_sample_dt u)) disps used
    /\ Forall2 (fun d m => accurate (INR (length (entries d)) + 5) m (msd_of axes (values d)))
         (filter (fun d => (1 <? length (entries d))%nat) used) (b_n b).
Proof. intros G Seed RS. exact C79_msd_proof. Qed.
Print Assumptions C79_reported_means.

(** The order of the additions does not matter: whatever grouping `np.sum` and `np.mean` use, the
    error is governed by the largest number of additions one term goes through. *)
Theorem C79_any_order :
  forall axes (d : Arr spec_float) xs h s, (length axes <= 3)%nat -> moderate_displacements d ->
  entries d <> [] -> Z.of_nat (length (entries d)) <= 2 ^ 50 -> Z.of_nat h <= 2 ^ 50 ->
  Forall2 (computed_square axes) (entries d) xs -> sum_of h xs s ->
  accurate (INR h + 5) (SFdiv 53 1024 s (SFofZ (Z.of_nat (length (entries d))))) (msd_of axes (values d)).
Proof. exact C79_any_order_proof. Qed.
Print Assumptions C79_any_order.

(** Two atoms, two observations, axes x and z: (5 + 10 + 1 + 2) / 4 = 4.5. *)
Example C79_example : moderate_displacements rounding_demo /\
  forall (G Seed RS : Type) (X : Ext spec_float G Seed RS) (g : G),
  exists b, msd_bootstrap X (mkBootParams 1 false false 0 0 (PyStr "xz") (SFofZ 0)) [SFofZ 1] [rounding_demo] [SFofZ 4] g = Ok (b, g)
    /\ b_n b = [S754_finite false 5066549580791808 (-50)].
Proof. split; [exact rounding_demo_ok|]. intros G Seed RS. exact C79_example_proof. Qed.

(** ** C80: variances are finite and not negative, so their square roots are never NaN. The reported
    standard error is right to (3N + 19) 2^-52 of the root mean square of the quantity averaged. The
    non-Gaussian parameter is right to (5N + 38) 2^-52 of itself plus one. *)
Theorem C80_variance_and_non_gaussian :
  forall (G Seed RS : Type) (X : Ext spec_float G Seed RS) u dts disps n_o g b g',
  0 < u_sub_sample_dt u -> u_block u = false ->
  Forall tame_displacements disps -> Forall (fun d => Z.of_nat (length (entries d)) <= 2 ^ 40) disps ->
  Forall (fun no => finite_double no /\ (powerRZ 2 (-100) <= value no <= powerRZ 2 100)%R) n_o ->
  msd_bootstrap X u dts disps n_o g = Ok (b, g') ->
  exists axes used, names (pystr_text (u_dimension u)) axes /\ sub_sample (Z.to_nat (u_sub_sample_dt u)) disps used
    /\ length (b_v b) = length (b_n b) /\ length (b_ngp b) = length (b_n b)
    /\ forall j v a, nth_error (b_v b) j = Some v -> nth_error (b_ngp b) j = Some a ->
       exists d no, nth_error used j = Some d /\ nth_error n_o j = Some no
       /\ let N := INR (length (entries d)) in let x := map (sqlen axes) (entries (values d)) in
          (finite_double v /\ 0 <= value v
           /\ Rabs (sqrt (value v) - sqrt (sample_variance x / value no))
               <= (3 * N + 19) * / 2 ^ 52 * sqrt (rsum (map (fun r => r * r) x) / (N - 1) / value no)
           /\ (average x <> 0 -> finite_double a /\ Rabs (value a - non_gaussian x) <= (5 * N + 38) * / 2 ^ 52 * (non_gaussian x + 1)))%R.
Proof. intros G Seed RS. exact C80_proof. Qed.
Print Assumptions C80_variance_and_non_gaussian.

(** The squared lengths are 5, 10, 1, 2: variance 49/3 over 4 observations, 3*32.5/(5*20.25) - 1. *)
Example C80_example : tame_displacements rounding_demo /\
  forall (G Seed RS : Type) (X : Ext spec_float G Seed RS) (g : G),
  exists b, msd_bootstrap X (mkBootParams 1 false false 0 0 (PyStr "xz") (SFofZ 0)) [SFofZ 1] [rounding_demo] [SFofZ 4] g = Ok (b, g)
    /\ b_v b = [SFdiv 53 1024 (SFofZ 49) (SFofZ 12)]
    /\ b_ngp b = [SFsub 53 1024 (SFdiv 53 1024 (SFdiv 53 1024 (SFofZ 390) (SFofZ 4)) (SFdiv 53 1024 (SFofZ 405) (SFofZ 4))) (SFofZ 1)].
Proof. split; [exact rounding_demo_tame|]. intros G Seed RS. exact C80_example_proof. Qed.
