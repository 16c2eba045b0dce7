(** * PropertiesHetero: C96 the non-Gaussian parameter, and the size of the bias of C81 *)
From Verif Require Import Base Spec SpecParser SpecStats ModelParser ModelDiffusion ModelHdf ModelAnalyzer
  ProofsTraj ProofsStats SpecRun SpecTrue ProofsTrue SpecHetero ProofsHetero.
From Coq Require Import Reals Sorting.Permutation.
Open Scope Z_scope.

(** ** C96
    The parameter should vanish for Gaussian motion along the chosen axes. Along one axis it is 4/5. *)
Theorem C96_gaussian_refuted : forall G Seed RS (X : Ext R G Seed RS) (g : G), exists d b,
  gaussian_moments [AX] (entries d) /\ names "x" [AX] /\ msd_bootstrap X (demo_boot 1 "x") [1]%R [d] [54]%R g = Ok (b, g) /\ b_ngp b = [4 / 5]%R.
Proof. exact C96_refuted_proof. Qed.
Print Assumptions C96_gaussian_refuted.
(** For Gaussian motion along D axes it is (6-2D)/(5D), so it vanishes only when all three axes are
    chosen. Missing: one and two axes, which would need the factors 1/3 and 1/2 instead of 3/5. *)
Theorem C96_gaussian_partial : forall G Seed RS (X : Ext R G Seed RS) u dts disps n_o g b g' axes i x d,
  0 < u_sub_sample_dt u -> names (pystr_text (u_dimension u)) axes ->
  msd_bootstrap X u dts disps n_o g = Ok (b, g') -> nth_error (b_ngp b) i = Some x ->
  nth_error disps (i * Z.to_nat (u_sub_sample_dt u)) = Some d -> gaussian_moments axes (entries d) ->
  x = ((6 - 2 * INR (length axes)) / (5 * INR (length axes)))%R /\ (x = 0%R <-> axes = all_axes).
Proof. exact @C96_axes_proof. Qed.
Print Assumptions C96_gaussian_partial.
Example C96_example : forall G Seed RS (X : Ext R G Seed RS) (g : G), exists d b,
  gaussian_moments all_axes (entries d) /\ msd_bootstrap X (demo_boot 1 "xyz") [1]%R [d] [54]%R g = Ok (b, g) /\ b_ngp b = [0]%R.
Proof. exact C96_example_proof. Qed.

(** Atoms at rest: with [z] displacements of zero added to N, one plus the parameter grows by (N+z)/N. *)
Theorem C96_immobile : forall G Seed RS (X : Ext R G Seed RS) u dts disps n_o g b g' axes dts' disps' n_o' h b' h' i x x' d d' z,
  0 < u_sub_sample_dt u -> names (pystr_text (u_dimension u)) axes ->
  msd_bootstrap X u dts disps n_o g = Ok (b, g') -> msd_bootstrap X u dts' disps' n_o' h = Ok (b', h') ->
  nth_error (b_ngp b) i = Some x -> nth_error (b_ngp b') i = Some x' ->
  nth_error disps (i * Z.to_nat (u_sub_sample_dt u)) = Some d -> nth_error disps' (i * Z.to_nat (u_sub_sample_dt u)) = Some d' ->
  Permutation (entries d') (entries d ++ repeat zero3 z) -> msd_of axes d <> 0%R ->
  ((x' + 1) * INR (length (entries d)) = (x + 1) * INR (length (entries d) + z))%R.
Proof. exact @C96_immobile_proof. Qed.
Print Assumptions C96_immobile.
(** With as many resting as Gaussian displacements it is 1. *)
Example C96_immobile_example : forall G Seed RS (X : Ext R G Seed RS) (g : G), exists b b' d d',
  msd_bootstrap X (demo_boot 1 "xyz") [1]%R [d] [54]%R g = Ok (b, g) /\ msd_bootstrap X (demo_boot 1 "xyz") [1]%R [d'] [108]%R g = Ok (b', g)
  /\ Permutation (entries d') (entries d ++ repeat zero3 54) /\ length (entries d) = 54%nat /\ msd_of all_axes d <> 0%R /\ b_ngp b = [0]%R /\ b_ngp b' = [1]%R.
Proof. exact C96_immobile_example_proof. Qed.

(** In terms of the true trajectory: the parameter of all windows of [m] used frames together with one
    window of [m - 1] frames at the start. *)
Theorem C96_reported_ngp : forall G Seed RS (X : Ext R G Seed RS) i circ cell types vol n natoms k x a p u axes g an g',
  faithful_read i circ cell types vol n natoms k x a p -> 0 < u_sub_sample_dt u -> u_block u = false -> names (pystr_text (u_dimension u)) axes ->
  diffusion_analyzer X (of_parsed p) u g = Ok (an, g') -> forall j t, nth_error (b_dt (an_diff an)) j = Some t ->
  exists m, nth_error (p_intervals p) (j * Z.to_nat (u_sub_sample_dt u)) = Some (Z.of_nat m) /\ (0 < m <= kept n k)%nat
    /\ let T := kept n k in let pos f b := cart cell (x f b) in
       nth_error (b_ngp (an_diff an)) j = Some (non_gaussian (true_squares axes natoms k pos (p_indices p) (p_drift_indices p) T m
         ++ squares_between axes natoms k pos (p_indices p) (p_drift_indices p) 0 (m - 1))).
Proof. exact @C96_reported_proof. Qed.
Print Assumptions C96_reported_ngp.
(** For an interval of one used frame the atoms seem at rest in one of T windows: one plus the reported
    parameter is one plus the true one times T/(T-1). *)
Theorem C96_one_frame : forall G Seed RS (X : Ext R G Seed RS) i circ cell types vol n natoms k x a p u axes g an g',
  faithful_read i circ cell types vol n natoms k x a p -> 0 < u_sub_sample_dt u -> u_block u = false -> names (pystr_text (u_dimension u)) axes ->
  diffusion_analyzer X (of_parsed p) u g = Ok (an, g') -> forall j t, nth_error (b_dt (an_diff an)) j = Some t ->
  nth_error (p_intervals p) (j * Z.to_nat (u_sub_sample_dt u)) = Some 1 ->
  let T := kept n k in let pos f b := cart cell (x f b) in
  true_msd axes natoms k pos (p_indices p) (p_drift_indices p) T 1 <> 0%R ->
  exists y, nth_error (b_ngp (an_diff an)) j = Some y
    /\ ((y + 1) * INR (T - 1) = (true_ngp axes natoms k pos (p_indices p) (p_drift_indices p) T 1 + 1) * INR T)%R.
Proof. exact @C96_one_frame_proof. Qed.
Print Assumptions C96_one_frame.
Example C96_walk_example : forall G Seed RS (X : Ext R G Seed RS) circ (g : G), exists p an,
  faithful_read Ase circ unit_cell ["Li"; "O"]%string 1%R 4 2 1 (walk steady) walk_params p
  /\ diffusion_analyzer X (of_parsed p) (demo_boot 1 "xyz") g = Ok (an, g)
  /\ nth_error (p_intervals p) 0 = Some 1 /\ nth_error (b_dt (an_diff an)) 0 = Some 1%R
  /\ true_msd all_axes 2 1 (fun f b => cart unit_cell (walk steady f b)) (p_indices p) (p_drift_indices p) 4 1 <> 0%R
  /\ true_ngp all_axes 2 1 (fun f b => cart unit_cell (walk steady f b)) (p_indices p) (p_drift_indices p) 4 1 = (- (2 / 5))%R
  /\ nth_error (b_ngp (an_diff an)) 0 = Some (- (1 / 5))%R.
Proof. exact C96_walk_example_proof. Qed.

(** ** C81, continued
    The error of the reported mean squared displacement vanishes as 1/(T-m+1) when the trajectory
    becomes longer: it is at most B/(T-m+1) when no window of up to [m] frames has a mean squared
    displacement above B. *)
Theorem C81_bias_bound : forall G Seed RS (X : Ext R G Seed RS) i circ cell types vol n natoms k x a p u axes g an g',
  faithful_read i circ cell types vol n natoms k x a p -> 0 < u_sub_sample_dt u -> u_block u = false -> names (pystr_text (u_dimension u)) axes ->
  diffusion_analyzer X (of_parsed p) u g = Ok (an, g') -> forall j t, nth_error (b_dt (an_diff an)) j = Some t ->
  exists m v, nth_error (p_intervals p) (j * Z.to_nat (u_sub_sample_dt u)) = Some (Z.of_nat m) /\ (0 < m <= kept n k)%nat
    /\ nth_error (b_n (an_diff an)) j = Some v
    /\ let T := kept n k in let pos f b := cart cell (x f b) in
       let between := square_between axes natoms k pos (p_indices p) (p_drift_indices p) in
       let exact := true_msd axes natoms k pos (p_indices p) (p_drift_indices p) T m in
       (v - exact = (between 0%nat (m - 1)%nat - exact) / INR (T - m + 1))%R
       /\ forall B, (m < T)%nat -> (forall f l, (f + l < T)%nat -> (l <= m)%nat -> (between f (f + l)%nat <= B)%R) ->
            (Rabs (v - exact) <= B / INR (T - m + 1))%R.
Proof. exact @C81_bias_proof. Qed.
Print Assumptions C81_bias_bound.
