(** * PropertiesPool: C76 the collective statistics of several replicas *)
From Verif Require Import Base Spec SpecParser SpecStats SpecFit SpecGls SpecSym SpecRun SpecAnalyzer ModelParser ModelDiffusion ModelHdf ModelAnalyzer
  ProofsTraj ProofsStats ProofsAnalyzer ProofsCov ProofsGls SpecPool ProofsPool.
From Coq Require Import Reals.
Open Scope Z_scope.

(** ** C76
    Replicas are analysed as one larger system: the mean squared total displacement is the sum, over
    all pairs of replicas, of the average product of their collective displacements. *)
Theorem C76_cross_terms : forall G Seed RS (X : Ext R G Seed RS) (parse : parser_of) geo circ (a : Params R) t0 ts ps d u g an g' i M, In parse parsers ->
  ts <> [] -> Forall (alike t0) ts -> Forall2 (fun t p => parse geo circ t a = Ok p) ts ps ->
  0 < u_sub_sample_dt u -> u_block u = false ->
  from_frames (fun t => parse geo circ t a) (TMulti ts) (Some "identical"%string) = Ok d ->
  jump_diffusion_analyzer X d u g = Ok (an, g') -> nth_error (b_n (an_diff an)) i = Some M ->
  exists axes rs, names (pystr_text (u_dimension u)) axes /\ SpecAnalyzer.column p_disp_3d (i * Z.to_nat (u_sub_sample_dt u)) ps rs
    /\ (exists arr, stacked rs arr /\ M = mstd_of axes arr)
    /\ M = rsum (map (fun r => rsum (map (covariation axes r) rs)) rs).
Proof. exact @C76_formula_proof. Qed.
Print Assumptions C76_cross_terms.
(** It is at most the number of replicas times the sum of the values of the single replicas, and
    their sum (not their average) when the replicas are uncorrelated. *)
Theorem C76_jump_diffusion : forall G Seed RS (X : Ext R G Seed RS) (parse : parser_of) geo circ (a : Params R) t0 ts ps d u g an g' i M ms, In parse parsers ->
  ts <> [] -> Forall (alike t0) ts -> Forall2 (fun t p => parse geo circ t a = Ok p) ts ps ->
  0 < u_sub_sample_dt u -> u_block u = false ->
  from_frames (fun t => parse geo circ t a) (TMulti ts) (Some "identical"%string) = Ok d ->
  jump_diffusion_analyzer X d u g = Ok (an, g') -> nth_error (b_n (an_diff an)) i = Some M ->
  Forall2 (mstd_reported X (fun t => parse geo circ t a) u i) ts ms ->
  (0 <= M <= INR (length ts) * rsum ms)%R
  /\ forall axes rs, names (pystr_text (u_dimension u)) axes -> SpecAnalyzer.column p_disp_3d (i * Z.to_nat (u_sub_sample_dt u)) ps rs ->
       uncorrelated axes rs -> M = rsum ms.
Proof. exact @C76_bounds_proof. Qed.
Print Assumptions C76_jump_diffusion.
(** The same for the charge displacement; the volume is that of the first replica. *)
Theorem C76_conductivity : forall G Seed RS (X : Ext R G Seed RS) (parse : parser_of) circ (a : Params R) t0 ts ps d (c : R) u g an g' i M ms, In parse parsers ->
  ts <> [] -> Forall (alike t0) ts -> Forall2 (fun t p => parse geomspace_R circ t a = Ok p) ts ps ->
  0 < u_sub_sample_dt u -> u_block u = false ->
  from_frames (fun t => parse geomspace_R circ t a) (TMulti ts) (Some "identical"%string) = Ok d ->
  conductivity_analyzer X d (QScalar c) u g = Ok (an, g') -> nth_error (b_n (an_diff an)) i = Some M ->
  Forall2 (mscd_reported X (fun t => parse geomspace_R circ t a) (QScalar c) u i) ts ms ->
  hd_error (map p_volume ps) = Some (an_volume (an_data an))
  /\ (0 <= M <= INR (length ts) * rsum ms)%R
  /\ forall rs, SpecAnalyzer.column p_disp_3d (i * Z.to_nat (u_sub_sample_dt u)) ps rs -> uncorrelated all_axes rs -> M = rsum ms.
Proof. exact @C76_mscd_proof. Qed.
Print Assumptions C76_conductivity.
(** Copies of one trajectory: means times k^2 and variances times k^4. *)
Theorem C76_copies_jump_diffusion : forall G Seed RS (X : Ext R G Seed RS) (parse : parser_of) geo circ (a : Params R) t k d d' u g an g' g1 an1 g1', In parse parsers ->
  0 < u_sub_sample_dt u -> u_block u = false ->
  from_frames (fun t => parse geo circ t a) (TSingle t) None = Ok d ->
  from_frames (fun t => parse geo circ t a) (TMulti (repeat t (S k))) (Some "identical"%string) = Ok d' ->
  jump_diffusion_analyzer X d u g = Ok (an, g') -> jump_diffusion_analyzer X d' u g1 = Ok (an1, g1') ->
  copied_statistics (S k) (an_diff an) (an_diff an1) /\ an_volume (an_data an1) = an_volume (an_data an).
Proof. exact @C76_copies_jump_proof. Qed.
Print Assumptions C76_copies_jump_diffusion.
Theorem C76_copies_conductivity : forall G Seed RS (X : Ext R G Seed RS) (parse : parser_of) circ (a : Params R) t k d d' (c : R) u g an g' g1 an1 g1', In parse parsers ->
  0 < u_sub_sample_dt u -> u_block u = false ->
  from_frames (fun t => parse geomspace_R circ t a) (TSingle t) None = Ok d ->
  from_frames (fun t => parse geomspace_R circ t a) (TMulti (repeat t (S k))) (Some "identical"%string) = Ok d' ->
  conductivity_analyzer X d (QScalar c) u g = Ok (an, g') -> conductivity_analyzer X d' (QScalar c) u g1 = Ok (an1, g1') ->
  copied_statistics (S k) (an_diff an) (an_diff an1) /\ an_volume (an_data an1) = an_volume (an_data an).
Proof. exact @C76_copies_conductivity_proof. Qed.
Print Assumptions C76_copies_conductivity.
(** So the covariance matrix is multiplied by k^4, the gradient of the best line by k^2, and the
    jump-diffusion coefficient by k: the relative uncertainty does not shrink. *)
Theorem C76_copies_covariance : forall {G Seed RS} (X : Ext R G Seed RS) k b b' p r, (0 < k)%nat -> copied_statistics k b b' -> l_model p = false ->
  fst (generate_covariance_matrix X b' p r) = option_map (weighted (INR k * INR k * (INR k * INR k))) (fst (generate_covariance_matrix X b p r)).
Proof. exact @C76_covariance_proof. Qed.
Print Assumptions C76_copies_covariance.
Theorem C76_copies_fit : forall k b b' r w g i, (0 < k)%nat -> copied_statistics k b b' ->
  length (b_dt b) = length (b_n b) -> square w (length (skipn r (b_n b))) -> symmetric w ->
  (gls_solution (weighted (/ (INR k * INR k * (INR k * INR k))) w) (skipn r (b_dt b')) (skipn r (b_n b')) (INR k * INR k * g) (INR k * INR k * i)
   <-> gls_solution w (skipn r (b_dt b)) (skipn r (b_n b)) g i).
Proof. exact C76_fit_proof. Qed.
Print Assumptions C76_copies_fit.
Theorem C76_copies_coefficient : forall k b b' d d' gr, (0 < k)%nat -> copied_statistics k b b' ->
  nth_error (b_displacements b) 0 = Some d -> nth_error (b_displacements b') 0 = Some d' -> (0 < length (a_rows d))%nat ->
  jump_samples (b_dims b') (length (a_rows d')) (map (Rmult (INR k * INR k)) gr) = map (Rmult (INR k)) (jump_samples (b_dims b) (length (a_rows d)) gr).
Proof. exact C76_coefficients_proof. Qed.
Print Assumptions C76_copies_coefficient.
(** One charge per ion (two or more ions) is not accepted for two or more replicas. *)
Theorem C76_charges_per_ion : forall G Seed RS (X : Ext R G Seed RS) (parse : parser_of) circ (a : Params R) t0 ts ps d l u g p, In parse parsers ->
  (1 < length ts)%nat -> Forall (alike t0) ts -> Forall2 (fun t p => parse geomspace_R circ t a = Ok p) ts ps -> In p ps ->
  0 < u_sub_sample_dt u -> (Z.to_nat (u_sub_sample_dt u) < length (p_disp_3d p))%nat ->
  length l = length (p_indices p) -> (1 < length l)%nat ->
  from_frames (fun t => parse geomspace_R circ t a) (TMulti ts) (Some "identical"%string) = Ok d ->
  forall r, conductivity_analyzer X d (QArray l) u g <> Ok r.
Proof. exact @C76_charges_proof. Qed.
Print Assumptions C76_charges_per_ion.
Example C76_charges_example : forall circ, let parse := fun t => ase_parser geomspace_R circ t drive_params in let ts := [pair_frames unit_x; pair_frames unit_y] in
  exists ps p d, Forall (alike (pair_frames unit_x)) ts /\ Forall2 (fun t p => parse t = Ok p) ts ps /\ In p ps
  /\ 0 < u_sub_sample_dt (demo_boot 1 "xyz") /\ (Z.to_nat (u_sub_sample_dt (demo_boot 1 "xyz")) < length (p_disp_3d p))%nat
  /\ length [1;-1]%R = length (p_indices p) /\ (1 < length [1;-1]%R)%nat
  /\ from_frames parse (TMulti ts) (Some "identical"%string) = Ok d.
Proof. exact C76_charges_example_proof. Qed.
(** Refuted: replicas are averaged. The same trajectory twice gives four times the collective mean
    squared displacement, for the same cell volume. *)
Theorem C76_copies_averaged_refuted : forall G Seed RS (X : Ext R G Seed RS) circ (g : G),
  let parse := fun t => ase_parser geomspace_R circ t drive_params in exists t,
  exists d d' an an' cn cn', from_frames parse (TSingle t) None = Ok d
  /\ from_frames parse (TMulti [t; t]) (Some "identical"%string) = Ok d' /\ an_volume d' = an_volume d
  /\ jump_diffusion_analyzer X d (demo_boot 1 "xyz") g = Ok (an, g) /\ b_n (an_diff an) = [3/400]%R
  /\ jump_diffusion_analyzer X d' (demo_boot 1 "xyz") g = Ok (an', g) /\ b_n (an_diff an') = [4 * (3/400)]%R
  /\ conductivity_analyzer X d (QScalar 1%R) (demo_boot 1 "xyz") g = Ok (cn, g) /\ b_n (an_diff cn) = [3/400]%R
  /\ conductivity_analyzer X d' (QScalar 1%R) (demo_boot 1 "xyz") g = Ok (cn', g) /\ b_n (an_diff cn') = [4 * (3/400)]%R.
Proof. intros G Seed RS X circ g parse. exists (drive_frames unit_x). exact (C76_copies_refuted_proof X circ g). Qed.
Print Assumptions C76_copies_averaged_refuted.
(** Refuted: the charge displacement from uncorrelated replicas is that of one replica. Two replicas
    give twice the value, for the volume of one. *)
Theorem C76_uncorrelated_conductivity_refuted : forall G Seed RS (X : Ext R G Seed RS) circ (g : G),
  let parse := fun t => ase_parser geomspace_R circ t drive_params in exists t1 t2 d1 d2 d c1 c2 cn,
  from_frames parse (TSingle t1) None = Ok d1 /\ from_frames parse (TSingle t2) None = Ok d2
  /\ from_frames parse (TMulti [t1; t2]) (Some "identical"%string) = Ok d
  /\ an_volume d = an_volume d1 /\ an_volume d = an_volume d2
  /\ conductivity_analyzer X d1 (QScalar 1%R) (demo_boot 1 "xyz") g = Ok (c1, g) /\ b_n (an_diff c1) = [3/400]%R
  /\ conductivity_analyzer X d2 (QScalar 1%R) (demo_boot 1 "xyz") g = Ok (c2, g) /\ b_n (an_diff c2) = [3/400]%R
  /\ conductivity_analyzer X d (QScalar 1%R) (demo_boot 1 "xyz") g = Ok (cn, g) /\ b_n (an_diff cn) = [3/400 + 3/400]%R.
Proof. intros G Seed RS X circ g parse. exists (drive_frames unit_x), (drive_frames unit_y). exact (C76_uncorrelated_refuted_proof X circ g). Qed.
Print Assumptions C76_uncorrelated_conductivity_refuted.
