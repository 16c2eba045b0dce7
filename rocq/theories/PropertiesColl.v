(** * PropertiesColl: C85, C86 reported collective displacements and the true trajectory *)
From Verif Require Import Base Spec SpecParser SpecStats ModelParser ModelDiffusion ModelHdf ModelAnalyzer
  ProofsTraj ProofsStats SpecRun SpecPool SpecTrue ProofsTrue SpecColl ProofsColl.
From Coq Require Import Reals.
Open Scope Z_scope.

(** ** C85
    The reported mean squared collective displacement of an interval should be the average over all
    pairs of used frames that far apart. It is not: here the only Li atom moves by 1/10 at every frame. *)
Theorem C85_true_average_refuted : forall G Seed RS (X : Ext R G Seed RS) circ (g : G), exists x a p an,
  faithful_read Ase circ unit_cell ["Li"; "O"]%string 1%R 4 2 1 x a p
  /\ jump_diffusion_analyzer X (of_parsed p) (demo_boot 1 "xyz") g = Ok (an, g)
  /\ nth_error (p_intervals p) 0 = Some 1 /\ nth_error (b_dt (an_diff an)) 0 = Some 1%R
  /\ nth_error (b_n (an_diff an)) 0 = Some (3 / 400)%R
  /\ over_time 4 1 (total_between all_axes 2 1 (fun f b => cart unit_cell (x f b)) (p_indices p) (p_drift_indices p)) = (1 / 100)%R.
Proof. exact C85_refuted_proof. Qed.
Print Assumptions C85_true_average_refuted.
(** What is reported for an interval of [m] used frames: the [T - m] true windows averaged together
    with one window of [m - 1] frames at the start. *)
Theorem C85_reported_mstd_partial : forall G Seed RS (X : Ext R G Seed RS) i circ cell types vol n natoms k x a p u axes g an g',
  faithful_read i circ cell types vol n natoms k x a p -> 0 < u_sub_sample_dt u -> u_block u = false -> names (pystr_text (u_dimension u)) axes ->
  jump_diffusion_analyzer X (of_parsed p) u g = Ok (an, g') -> forall j t, nth_error (b_dt (an_diff an)) j = Some t ->
  exists m, nth_error (p_intervals p) (j * Z.to_nat (u_sub_sample_dt u)) = Some (Z.of_nat m) /\ nth_error (p_delta_t p) (j * Z.to_nat (u_sub_sample_dt u)) = Some t
    /\ (0 < m <= kept n k)%nat
    /\ let T := kept n k in let between := total_between axes natoms k (fun f b => cart cell (x f b)) (p_indices p) (p_drift_indices p) in
       nth_error (b_n (an_diff an)) j = Some ((INR (T - m) * over_time T m between + between 0%nat (m - 1)%nat) / INR (T - m + 1))%R.
Proof. exact @C85_mstd_proof. Qed.
Print Assumptions C85_reported_mstd_partial.
(** The same for the charge, which is always followed along all three axes. *)
Theorem C85_reported_mscd_partial : forall G Seed RS (X : Ext R G Seed RS) i circ cell types vol n natoms k x a p q u g an g',
  faithful_read i circ cell types vol n natoms k x a p -> 0 < u_sub_sample_dt u -> u_block u = false ->
  (forall l, q = QArray l -> length l = length (p_indices p)) ->
  conductivity_analyzer X (of_parsed p) q u g = Ok (an, g') -> forall j t, nth_error (b_dt (an_diff an)) j = Some t ->
  exists m, nth_error (p_intervals p) (j * Z.to_nat (u_sub_sample_dt u)) = Some (Z.of_nat m) /\ nth_error (p_delta_t p) (j * Z.to_nat (u_sub_sample_dt u)) = Some t
    /\ (0 < m <= kept n k)%nat
    /\ let T := kept n k in
       let between := charge_between (charges q (length (p_indices p))) natoms k (fun f b => cart cell (x f b)) (p_indices p) (p_drift_indices p) in
       nth_error (b_n (an_diff an)) j = Some ((INR (T - m) * over_time T m between + between 0%nat (m - 1)%nat) / INR (T - m + 1))%R.
Proof. exact @C85_mscd_proof. Qed.
Print Assumptions C85_reported_mscd_partial.
(** Averaged over many runs whose mean squared collective displacement grows by [c] per used frame,
    the report is too small by [c / (T - m + 1)]. *)
Theorem C85_diffusive : forall G Seed RS (X : Ext R G Seed RS) (E : Type) (es : list E) (w : E -> R) x (p : E -> Parsed R) (an : E -> Analyzer R) (v : E -> R)
    i circ cell types vol n natoms k a u axes j (c : R), es <> [] ->
  (forall e, In e es -> faithful_read i circ cell types vol n natoms k (x e) a (p e)) ->
  0 < u_sub_sample_dt u -> u_block u = false -> names (pystr_text (u_dimension u)) axes ->
  (forall e, In e es -> exists g g' t, jump_diffusion_analyzer X (of_parsed (p e)) u g = Ok (an e, g')
     /\ nth_error (b_dt (an_diff (an e))) j = Some t /\ nth_error (b_n (an_diff (an e))) j = Some (v e)) ->
  (forall f l, (f + l < kept n k)%nat -> rsum (map (fun e => w e
      * total_between axes natoms k (fun f b => cart cell (x e f b)) (p_indices (p e)) (p_drift_indices (p e)) f (f + l))%R es) = (c * INR l)%R) ->
  exists m, (0 < m <= kept n k)%nat /\ (forall e, In e es -> nth_error (p_intervals (p e)) (j * Z.to_nat (u_sub_sample_dt u)) = Some (Z.of_nat m))
    /\ rsum (map (fun e => w e * v e)%R es) = (c * (INR m - 1 / INR (kept n k - m + 1)))%R.
Proof. exact @C85_diffusive_proof. Qed.
Print Assumptions C85_diffusive.
(** All eight walks of three equal steps to the left or right. *)
Example C85_example : forall G Seed RS (X : Ext R G Seed RS) circ (g : G), exists p an,
  (forall e, In e tosses -> faithful_read Ase circ unit_cell ["Li"; "O"]%string 1%R 4 2 1 (walk (random_walk e)) walk_params (p e)
     /\ jump_diffusion_analyzer X (of_parsed (p e)) (demo_boot 1 "xyz") g = Ok (an e, g) /\ nth_error (b_dt (an_diff (an e))) 0 = Some 1%R)
  /\ (forall f l, (f + l < 4)%nat -> rsum (map (fun e => 1 / 8
        * total_between all_axes 2 1 (fun f b => cart unit_cell (walk (random_walk e) f b)) (p_indices (p e)) (p_drift_indices (p e)) f (f + l))%R tosses)
      = (1 / 100 * INR l)%R).
Proof. exact C85_example_proof. Qed.

(** ** C86
    When different atoms move independently of each other, the mean squared collective displacement
    reported is, averaged over many runs, N times the mean squared displacement reported for the same
    interval, so that jump diffusion and self-diffusion coincide. *)
Theorem C86_jump : forall G Seed RS (X : Ext R G Seed RS) (E : Type) (es : list E) (w : E -> R) x (p : E -> Parsed R) (an jn : E -> Analyzer R) (v v' : E -> R)
    i circ cell types vol n natoms k a u axes j,
  (forall e, In e es -> faithful_read i circ cell types vol n natoms k (x e) a (p e)) ->
  0 < u_sub_sample_dt u -> u_block u = false -> names (pystr_text (u_dimension u)) axes ->
  (forall e, In e es -> exists g g' t, diffusion_analyzer X (of_parsed (p e)) u g = Ok (an e, g')
     /\ nth_error (b_dt (an_diff (an e))) j = Some t /\ nth_error (b_n (an_diff (an e))) j = Some (v e)) ->
  (forall e, In e es -> exists g g' t, jump_diffusion_analyzer X (of_parsed (p e)) u g = Ok (jn e, g')
     /\ nth_error (b_dt (an_diff (jn e))) j = Some t /\ nth_error (b_n (an_diff (jn e))) j = Some (v' e)) ->
  uncorrelated_atoms es w axes cell natoms k (kept n k) x p ->
  forall e, In e es -> rsum (map (fun e => w e * v' e)%R es) = (INR (length (p_indices (p e))) * rsum (map (fun e => w e * v e)%R es))%R.
Proof. exact @C86_jump_proof. Qed.
Print Assumptions C86_jump.
(** With charges [c] or [-c] the mean squared charge displacement is c^2 N times the mean squared
    displacement. *)
Theorem C86_conductivity : forall G Seed RS (X : Ext R G Seed RS) (E : Type) (es : list E) (w : E -> R) x (p : E -> Parsed R) (an cn : E -> Analyzer R) (v v' : E -> R)
    i circ cell types vol n natoms k a q c u j,
  (forall e, In e es -> faithful_read i circ cell types vol n natoms k (x e) a (p e)) ->
  0 < u_sub_sample_dt u -> u_block u = false -> names (pystr_text (u_dimension u)) all_axes ->
  (forall e l, In e es -> q = QArray l -> length l = length (p_indices (p e))) ->
  (forall e, In e es -> Forall (fun y => y * y = c * c)%R (charges q (length (p_indices (p e))))) ->
  (forall e, In e es -> exists g g' t, diffusion_analyzer X (of_parsed (p e)) u g = Ok (an e, g')
     /\ nth_error (b_dt (an_diff (an e))) j = Some t /\ nth_error (b_n (an_diff (an e))) j = Some (v e)) ->
  (forall e, In e es -> exists g g' t, conductivity_analyzer X (of_parsed (p e)) q u g = Ok (cn e, g')
     /\ nth_error (b_dt (an_diff (cn e))) j = Some t /\ nth_error (b_n (an_diff (cn e))) j = Some (v' e)) ->
  uncorrelated_atoms es w all_axes cell natoms k (kept n k) x p ->
  forall e, In e es -> rsum (map (fun e => w e * v' e)%R es) = (c * c * INR (length (p_indices (p e))) * rsum (map (fun e => w e * v e)%R es))%R.
Proof. exact @C86_charge_proof. Qed.
Print Assumptions C86_conductivity.
(** Two Li atoms, each moving steadily to the right or to the left, in all four combinations. *)
Example C86_example : forall G Seed RS (X : Ext R G Seed RS) circ (g : G), exists p an jn cn,
  (forall e, In e directions -> faithful_read Ase circ unit_cell ["Li"; "Li"; "O"]%string 1%R 4 3 1 (pair_walk (steadily (fst e)) (steadily (snd e))) walk_params (p e)
     /\ p_indices (p e) = [0; 1] /\ diffusion_analyzer X (of_parsed (p e)) (demo_boot 1 "xyz") g = Ok (an e, g)
     /\ jump_diffusion_analyzer X (of_parsed (p e)) (demo_boot 1 "xyz") g = Ok (jn e, g)
     /\ conductivity_analyzer X (of_parsed (p e)) (QArray [1; -1]%R) (demo_boot 1 "xyz") g = Ok (cn e, g)
     /\ nth_error (b_dt (an_diff (an e))) 0 = Some 1%R /\ nth_error (b_dt (an_diff (jn e))) 0 = Some 1%R /\ nth_error (b_dt (an_diff (cn e))) 0 = Some 1%R)
  /\ uncorrelated_atoms directions (fun _ => 1 / 4)%R all_axes unit_cell 3 1 4 (fun e => pair_walk (steadily (fst e)) (steadily (snd e))) p.
Proof. exact C86_example_proof. Qed.
