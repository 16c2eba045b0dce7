(** * PropertiesTrue: C81, C82 reported mean squared displacements and the true trajectory *)
From Verif Require Import Base Spec SpecParser SpecStats ModelParser ModelDiffusion ModelHdf ModelAnalyzer
  ProofsTraj ProofsStats SpecRun SpecTrue ProofsTrue.
From Coq Require Import Reals.
Open Scope Z_scope.

(** ** C81
    The reported mean squared displacement of an interval should be the average over all pairs of
    used frames that far apart. It is not: here an atom moves by 1/10 at every frame. *)
Theorem C81_true_average_refuted : forall G Seed RS (X : Ext R G Seed RS) circ (g : G), exists x a p an,
  faithful_read Ase circ unit_cell ["Li"; "O"]%string 1%R 4 2 1 x a p
  /\ diffusion_analyzer X (of_parsed p) (demo_boot 1 "xyz") g = Ok (an, g)
  /\ nth_error (p_intervals p) 0 = Some 1 /\ nth_error (b_dt (an_diff an)) 0 = Some 1%R
  /\ nth_error (b_n (an_diff an)) 0 = Some (3 / 400)%R
  /\ true_msd all_axes 2 1 (fun f b => cart unit_cell (x f b)) (p_indices p) (p_drift_indices p) 4 1 = (1 / 100)%R.
Proof. exact C81_refuted_proof. Qed.
Print Assumptions C81_true_average_refuted.
(** What is reported for an interval of [m] used frames: the [T - m] true windows averaged together
    with one window of [m - 1] frames at the start. *)
Theorem C81_reported_msd_partial : forall G Seed RS (X : Ext R G Seed RS) i circ cell types vol n natoms k x a p u axes g an g',
  faithful_read i circ cell types vol n natoms k x a p -> 0 < u_sub_sample_dt u -> u_block u = false -> names (pystr_text (u_dimension u)) axes ->
  diffusion_analyzer X (of_parsed p) u g = Ok (an, g') -> forall j t, nth_error (b_dt (an_diff an)) j = Some t ->
  exists m, nth_error (p_intervals p) (j * Z.to_nat (u_sub_sample_dt u)) = Some (Z.of_nat m) /\ nth_error (p_delta_t p) (j * Z.to_nat (u_sub_sample_dt u)) = Some t
    /\ (0 < m <= kept n k)%nat
    /\ let T := kept n k in let pos f b := cart cell (x f b) in
       nth_error (b_n (an_diff an)) j = Some ((INR (T - m) * true_msd axes natoms k pos (p_indices p) (p_drift_indices p) T m
           + square_between axes natoms k pos (p_indices p) (p_drift_indices p) 0 (m - 1)) / INR (T - m + 1))%R.
Proof. exact @C81_reported_proof. Qed.
Print Assumptions C81_reported_msd_partial.
(** For an interval of one used frame that is the true value times (T-1)/T, whatever the motion. *)
Theorem C81_one_frame : forall G Seed RS (X : Ext R G Seed RS) i circ cell types vol n natoms k x a p u axes g an g',
  faithful_read i circ cell types vol n natoms k x a p -> 0 < u_sub_sample_dt u -> u_block u = false -> names (pystr_text (u_dimension u)) axes ->
  diffusion_analyzer X (of_parsed p) u g = Ok (an, g') -> forall j t, nth_error (b_dt (an_diff an)) j = Some t ->
  nth_error (p_intervals p) (j * Z.to_nat (u_sub_sample_dt u)) = Some 1 ->
  let T := kept n k in let pos f b := cart cell (x f b) in
  nth_error (b_n (an_diff an)) j = Some (INR (T - 1) / INR T * true_msd axes natoms k pos (p_indices p) (p_drift_indices p) T 1)%R.
Proof. exact @C81_one_frame_proof. Qed.
Print Assumptions C81_one_frame.
Example C81_example : forall G Seed RS (X : Ext R G Seed RS) circ (g : G) s, gentle s -> exists p an,
  faithful_read Ase circ unit_cell ["Li"; "O"]%string 1%R 4 2 1 (walk s) walk_params p
  /\ p_intervals p = [1; 2] /\ p_indices p = [0] /\ p_drift_indices p = [1]
  /\ diffusion_analyzer X (of_parsed p) (demo_boot 1 "xyz") g = Ok (an, g) /\ b_dt (an_diff an) = [1; 2]%R.
Proof. exact walk_run. Qed.
(** Averaged over many runs (with weights [w]) whose mean squared displacement over [l] used frames is
    [M l] wherever the window starts, the mean report is a mixture of [M m] and [M (m-1)]. *)
Theorem C81_expected : forall G Seed RS (X : Ext R G Seed RS) (E : Type) (es : list E) (w : E -> R) x (p : E -> Parsed R) (an : E -> Analyzer R) (v : E -> R)
    i circ cell types vol n natoms k a u axes j (M : nat -> R), es <> [] ->
  (forall e, In e es -> faithful_read i circ cell types vol n natoms k (x e) a (p e)) ->
  0 < u_sub_sample_dt u -> u_block u = false -> names (pystr_text (u_dimension u)) axes ->
  (forall e, In e es -> exists g g' t, diffusion_analyzer X (of_parsed (p e)) u g = Ok (an e, g')
     /\ nth_error (b_dt (an_diff (an e))) j = Some t /\ nth_error (b_n (an_diff (an e))) j = Some (v e)) ->
  (forall f l, (f + l < kept n k)%nat -> rsum (map (fun e => w e
      * square_between axes natoms k (fun f b => cart cell (x e f b)) (p_indices (p e)) (p_drift_indices (p e)) f (f + l))%R es) = M l) ->
  exists m, (0 < m <= kept n k)%nat /\ (forall e, In e es -> nth_error (p_intervals (p e)) (j * Z.to_nat (u_sub_sample_dt u)) = Some (Z.of_nat m))
    /\ rsum (map (fun e => w e * v e)%R es) = ((INR (kept n k - m) * M m + M (m - 1)%nat) / INR (kept n k - m + 1))%R.
Proof. exact @C81_expected_proof. Qed.
Print Assumptions C81_expected.
(** So for diffusion (mean squared displacement [c] per used frame) the report is on average too
    small by [c / (T - m + 1)]. *)
Theorem C81_diffusive : forall G Seed RS (X : Ext R G Seed RS) (E : Type) (es : list E) (w : E -> R) x (p : E -> Parsed R) (an : E -> Analyzer R) (v : E -> R)
    i circ cell types vol n natoms k a u axes j (c : R), es <> [] ->
  (forall e, In e es -> faithful_read i circ cell types vol n natoms k (x e) a (p e)) ->
  0 < u_sub_sample_dt u -> u_block u = false -> names (pystr_text (u_dimension u)) axes ->
  (forall e, In e es -> exists g g' t, diffusion_analyzer X (of_parsed (p e)) u g = Ok (an e, g')
     /\ nth_error (b_dt (an_diff (an e))) j = Some t /\ nth_error (b_n (an_diff (an e))) j = Some (v e)) ->
  (forall f l, (f + l < kept n k)%nat -> rsum (map (fun e => w e
      * square_between axes natoms k (fun f b => cart cell (x e f b)) (p_indices (p e)) (p_drift_indices (p e)) f (f + l))%R es) = (c * INR l)%R) ->
  exists m, (0 < m <= kept n k)%nat /\ (forall e, In e es -> nth_error (p_intervals (p e)) (j * Z.to_nat (u_sub_sample_dt u)) = Some (Z.of_nat m))
    /\ rsum (map (fun e => w e * v e)%R es) = (c * (INR m - 1 / INR (kept n k - m + 1)))%R.
Proof. exact C81_diffusive_proof. Qed.
Print Assumptions C81_diffusive.
(** All eight walks of three equal steps to the left or right. *)
Example C81_expected_example : forall G Seed RS (X : Ext R G Seed RS) circ (g : G), exists p an,
  (forall e, In e tosses -> faithful_read Ase circ unit_cell ["Li"; "O"]%string 1%R 4 2 1 (walk (random_walk e)) walk_params (p e))
  /\ (forall e, In e tosses -> exists t v, diffusion_analyzer X (of_parsed (p e)) (demo_boot 1 "xyz") g = Ok (an e, g)
       /\ nth_error (b_dt (an_diff (an e))) 1 = Some t /\ nth_error (b_n (an_diff (an e))) 1 = Some v)
  /\ (forall f l, (f + l < 4)%nat -> rsum (map (fun e => 1 / 8
        * square_between all_axes 2 1 (fun f b => cart unit_cell (walk (random_walk e) f b)) (p_indices (p e)) (p_drift_indices (p e)) f (f + l))%R tosses)
      = (1 / 100 * INR l)%R).
Proof. exact C81_expected_example_proof. Qed.

(** ** C82
    Playing a trajectory backwards should not change mean squared displacements. It does. *)
Theorem C82_time_reversal_refuted : forall G Seed RS (X : Ext R G Seed RS) circ (g : G), exists x a p an p' an' v v',
  faithful_read Ase circ unit_cell ["Li"; "O"]%string 1%R 4 2 1 x a p
  /\ faithful_read Ase circ unit_cell ["Li"; "O"]%string 1%R 4 2 1 (fun f => x (4 - 1 - f)%nat) a p'
  /\ diffusion_analyzer X (of_parsed p) (demo_boot 1 "xyz") g = Ok (an, g)
  /\ diffusion_analyzer X (of_parsed p') (demo_boot 1 "xyz") g = Ok (an', g)
  /\ nth_error (b_dt (an_diff an)) 1 = Some 2%R /\ nth_error (b_dt (an_diff an')) 1 = Some 2%R
  /\ nth_error (b_n (an_diff an)) 1 = Some v /\ nth_error (b_n (an_diff an')) 1 = Some v' /\ v = (1 / 50)%R /\ v' = (3 / 100)%R.
Proof. exact C82_refuted_proof. Qed.
Print Assumptions C82_time_reversal_refuted.
(** The difference comes from the first [m] and the last [m] frames alone. *)
Theorem C82_difference_partial : forall G Seed RS (X : Ext R G Seed RS) i circ cell types vol n natoms x a p p' u axes g h an g' h' an',
  faithful_read i circ cell types vol n natoms 1 x a p -> faithful_read i circ cell types vol n natoms 1 (fun f => x (n - 1 - f)%nat) a p' ->
  0 < u_sub_sample_dt u -> u_block u = false -> names (pystr_text (u_dimension u)) axes ->
  diffusion_analyzer X (of_parsed p) u g = Ok (an, g') -> diffusion_analyzer X (of_parsed p') u h = Ok (an', h') ->
  forall j t, nth_error (b_dt (an_diff an)) j = Some t -> nth_error (b_dt (an_diff an')) j <> None ->
  nth_error (b_dt (an_diff an')) j = Some t
  /\ exists m v v', nth_error (p_intervals p) (j * Z.to_nat (u_sub_sample_dt u)) = Some (Z.of_nat m) /\ (0 < m <= n)%nat
    /\ nth_error (b_n (an_diff an)) j = Some v /\ nth_error (b_n (an_diff an')) j = Some v'
    /\ let pos f b := cart cell (x f b) in let between := square_between axes natoms 1 pos (p_indices p) (p_drift_indices p) in
       ((v - v') * INR (n - m + 1) = between 0%nat (m - 1)%nat - between (n - m)%nat (n - 1)%nat)%R.
Proof. exact @C82_difference_proof. Qed.
Print Assumptions C82_difference_partial.
