(** * PropertiesCaged: C112, atoms kept in place and atoms moving uniformly *)
From Verif Require Import Base Spec SpecParser SpecStats SpecRun SpecFit SpecGls SpecAnalyzer SpecPool SpecTrue SpecColl SpecMarkov SpecFitErr SpecCaged
  ModelParser ModelDiffusion ModelHdf ModelAnalyzer ProofsTraj ProofsStats ProofsTrue ProofsFitErr3 ProofsCaged.
From Coq Require Import Reals.
Open Scope nat_scope.

(** ** C112
    Atoms that never leave a ball of diameter [r] (relative to the framework) are reported as such. *)
(** No reported mean squared displacement exceeds r^2, at any interval. *)
Theorem C112_msd : forall G Seed RS (X : Ext R G Seed RS) i circ cell types vol n natoms k x a p u axes g an g' (r : R),
  faithful_read i circ cell types vol n natoms k x a p -> (0 < u_sub_sample_dt u)%Z -> u_block u = false -> names (pystr_text (u_dimension u)) axes ->
    caged axes natoms k (fun f b => cart cell (x f b)) (p_indices p) (p_drift_indices p) (kept n k) r ->
    diffusion_analyzer X (of_parsed p) u g = Ok (an, g') -> forall j t v, nth_error (b_dt (an_diff an)) j = Some t -> nth_error (b_n (an_diff an)) j = Some v -> (0 <= v <= r * r)%R.
Proof. exact @C112_msd_proof. Qed.
Print Assumptions C112_msd.
(** No reported collective displacement exceeds N^2 r^2. *)
Theorem C112_mstd : forall G Seed RS (X : Ext R G Seed RS) i circ cell types vol n natoms k x a p u axes g an g' (r : R),
  faithful_read i circ cell types vol n natoms k x a p -> (0 < u_sub_sample_dt u)%Z -> u_block u = false -> names (pystr_text (u_dimension u)) axes ->
    caged axes natoms k (fun f b => cart cell (x f b)) (p_indices p) (p_drift_indices p) (kept n k) r ->
    jump_diffusion_analyzer X (of_parsed p) u g = Ok (an, g') -> forall j t v, nth_error (b_dt (an_diff an)) j = Some t -> nth_error (b_n (an_diff an)) j = Some v ->
    (0 <= v <= INR (length (p_indices p)) * INR (length (p_indices p)) * (r * r))%R.
Proof. exact @C112_mstd_proof. Qed.
Print Assumptions C112_mstd.
(** No reported charge displacement exceeds the sum of the squared charges times N r^2. *)
Theorem C112_mscd : forall G Seed RS (X : Ext R G Seed RS) i circ cell types vol n natoms k x a p q u g an g' (r : R),
  faithful_read i circ cell types vol n natoms k x a p -> (0 < u_sub_sample_dt u)%Z -> u_block u = false -> (forall l, q = QArray l -> length l = length (p_indices p)) ->
    caged all_axes natoms k (fun f b => cart cell (x f b)) (p_indices p) (p_drift_indices p) (kept n k) r ->
    conductivity_analyzer X (of_parsed p) q u g = Ok (an, g') -> forall j t v, nth_error (b_dt (an_diff an)) j = Some t -> nth_error (b_n (an_diff an)) j = Some v ->
    (0 <= v <= rsum (map (fun c => c * c) (charges q (length (p_indices p)))) * (INR (length (p_indices p)) * (r * r)))%R.
Proof. exact @C112_mscd_proof. Qed.
Print Assumptions C112_mscd.
(** The slope of the best line through the reported values, from whichever interval on, is at most of the order of r^2 over the
    spread of the times: it goes to zero as the trajectory gets longer. [kappa] is the condition number of the weights. *)
Theorem C112_fit : forall G Seed RS (X : Ext R G Seed RS) i circ cell types vol n natoms k x a p u axes g an g' (r : R) from dt y (ld : R) w (kappa slope icept : R),
  faithful_read i circ cell types vol n natoms k x a p -> (0 < u_sub_sample_dt u)%Z -> u_block u = false -> names (pystr_text (u_dimension u)) axes ->
    caged axes natoms k (fun f b => cart cell (x f b)) (p_indices p) (p_drift_indices p) (kept n k) r ->
    diffusion_analyzer X (of_parsed p) u g = Ok (an, g') -> skipn from (b_dt (an_diff an)) = dt -> skipn from (b_n (an_diff an)) = y ->
    length dt = length y -> 0 < length dt -> sound_weights w (length dt) kappa -> (0 <= kappa)%R ->
    (most_likely (log_likelihood dt y ld w) [slope; icept] -> (slope * slope * time_spread dt <= kappa * (r * r * (r * r) / 4))%R)
    /\ (most_likely (log_likelihood dt y ld w) [slope] -> (slope * slope * time_square dt <= kappa * (r * r * (r * r)))%R).
Proof. exact @C112_fit_proof. Qed.
Print Assumptions C112_fit.
(** The same for any bounded values: the most likely line. *)
Theorem C112_slope : forall dt y (ld : R) w (kappa g c B : R),
  length dt = length y -> 0 < length dt -> sound_weights w (length dt) kappa -> (0 <= kappa)%R -> most_likely (log_likelihood dt y ld w) [g; c] ->
    (forall v, In v y -> (0 <= v <= B)%R) -> (g * g * time_spread dt <= kappa * (B * B / 4))%R.
Proof. exact @C112_slope_proof. Qed.
Print Assumptions C112_slope.
(** The most likely line through the origin. *)
Theorem C112_slope_origin : forall dt y (ld : R) w (kappa g B : R),
  length dt = length y -> 0 < length dt -> sound_weights w (length dt) kappa -> (0 <= kappa)%R -> most_likely (log_likelihood dt y ld w) [g] ->
    (forall v, In v y -> (0 <= v <= B)%R) -> (g * g * time_square dt <= kappa * (B * B))%R.
Proof. exact @C112_slope_origin_proof. Qed.
Print Assumptions C112_slope_origin.
(** Atoms moving uniformly are reported as ballistic but for the duplicated first frame: m^2 - (2m-1)/(T-m+1) times the mean squared step. *)
Theorem C112_uniform : forall G Seed RS (X : Ext R G Seed RS) i circ cell types vol n natoms k x a p u axes g an g' vel,
  faithful_read i circ cell types vol n natoms k x a p -> (0 < u_sub_sample_dt u)%Z -> u_block u = false -> names (pystr_text (u_dimension u)) axes ->
    uniform_motion natoms k (fun f b => cart cell (x f b)) (p_indices p) (p_drift_indices p) (kept n k) vel ->
    diffusion_analyzer X (of_parsed p) u g = Ok (an, g') -> forall j t, nth_error (b_dt (an_diff an)) j = Some t ->
    exists m, nth_error (p_intervals p) (j * Z.to_nat (u_sub_sample_dt u)) = Some (Z.of_nat m) /\ 0 < m <= kept n k
      /\ nth_error (b_n (an_diff an)) j = Some (average (map (fun i => sqlen axes (vel i)) (p_indices p)) * (INR m * INR m - (2 * INR m - 1) / INR (kept n k - m + 1)))%R.
Proof. exact @C112_uniform_proof. Qed.
Print Assumptions C112_uniform.
(** An atom vibrating by 1/10 and an atom moving by 1/10 at every frame. *)
Example C112_example : forall G Seed RS (X : Ext R G Seed RS) circ (g : G), exists p an q bn y,
  faithful_read Ase circ unit_cell ["Li"; "O"]%string 1%R 4 2 1 (walk vibration) walk_params p
  /\ caged all_axes 2 1 (fun f b => cart unit_cell (walk vibration f b)) (p_indices p) (p_drift_indices p) (kept 4 1) (1 / 10)
  /\ diffusion_analyzer X (of_parsed p) (demo_boot 1 "xyz") g = Ok (an, g) /\ b_n (an_diff an) = y /\ b_dt (an_diff an) = [1; 2]%R /\ length y = 2
  /\ sound_weights unit2 2 1 /\ (exists s c, most_likely (log_likelihood [1; 2]%R y 0%R unit2) [s; c])
  /\ faithful_read Ase circ unit_cell ["Li"; "O"]%string 1%R 4 2 1 (walk ProofsTrue.steady) walk_params q
  /\ uniform_motion 2 1 (fun f b => cart unit_cell (walk ProofsTrue.steady f b)) (p_indices q) (p_drift_indices q) (kept 4 1) (fun _ => mkV (1 / 10) 0 0)%R
  /\ diffusion_analyzer X (of_parsed q) (demo_boot 1 "xyz") g = Ok (bn, g) /\ b_dt (an_diff bn) = [1; 2]%R.
Proof. exact C112_example_proof. Qed.
