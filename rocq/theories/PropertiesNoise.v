(** * PropertiesNoise: C119, positions with uncorrelated errors *)
From Verif Require Import Base Spec SpecParser SpecStats SpecFit SpecRun SpecPool SpecTrue SpecNoise ModelParser ModelDiffusion ModelHdf ModelAnalyzer ProofsTraj ProofsStats ProofsTrue ProofsNoise.
From Coq Require Import Reals.
Open Scope Z_scope.

(** ** C119 *)
(** Averaged over runs whose positions are those of one trajectory plus errors uncorrelated between used
    frames, the reported mean squared displacement is that of the trajectory plus twice the mean square
    error, for every interval but one frame (there, the factor (T-1)/T of C81). *)
Theorem C119_msd : forall G Seed RS (X : Ext R G Seed RS) (E : Type) (es : list E) (w : E -> R) x (p : E -> Parsed R) (an : E -> Analyzer R) (v : E -> R)
    y p0 an0 v0 (noise : E -> nat -> nat -> V3 R) i circ cell types vol n natoms k a u,
  faithful_read i circ cell types vol n natoms k y a p0 -> (forall e, In e es -> faithful_read i circ cell types vol n natoms k (x e) a (p e)) ->
  (forall e f b, In e es -> (f < kept n k)%nat -> (b < natoms)%nat -> cart cell (x e (f * k)%nat b) = plus3 (cart cell (y (f * k)%nat b)) (noise e (f * k)%nat b)) ->
  0 < u_sub_sample_dt u -> u_block u = false -> forall axes j s, names (pystr_text (u_dimension u)) axes -> white_noise es w axes natoms k (kept n k) noise ->
  (forall f, (f < kept n k)%nat -> expected es w (fun e => error_square axes (errors natoms (noise e (f * k)%nat) (p_indices p0) (p_drift_indices p0))) = s) ->
  (exists g g' t, diffusion_analyzer X (of_parsed p0) u g = Ok (an0, g') /\ nth_error (b_dt (an_diff an0)) j = Some t /\ nth_error (b_n (an_diff an0)) j = Some v0) ->
  (forall e, In e es -> exists g g' t, diffusion_analyzer X (of_parsed (p e)) u g = Ok (an e, g') /\ nth_error (b_dt (an_diff (an e))) j = Some t
     /\ nth_error (b_n (an_diff (an e))) j = Some (v e)) ->
  exists m, nth_error (p_intervals p0) (j * Z.to_nat (u_sub_sample_dt u)) = Some (Z.of_nat m) /\ (0 < m <= kept n k)%nat /\ expected es w v = (v0 + added (kept n k) m s)%R.
Proof. exact @C119_msd_proof. Qed.
Print Assumptions C119_msd.
(** The same for the total displacement. *)
Theorem C119_mstd : forall G Seed RS (X : Ext R G Seed RS) (E : Type) (es : list E) (w : E -> R) x (p : E -> Parsed R) (an : E -> Analyzer R) (v : E -> R)
    y p0 an0 v0 (noise : E -> nat -> nat -> V3 R) i circ cell types vol n natoms k a u,
  faithful_read i circ cell types vol n natoms k y a p0 -> (forall e, In e es -> faithful_read i circ cell types vol n natoms k (x e) a (p e)) ->
  (forall e f b, In e es -> (f < kept n k)%nat -> (b < natoms)%nat -> cart cell (x e (f * k)%nat b) = plus3 (cart cell (y (f * k)%nat b)) (noise e (f * k)%nat b)) ->
  0 < u_sub_sample_dt u -> u_block u = false -> forall axes j s, names (pystr_text (u_dimension u)) axes -> white_noise es w axes natoms k (kept n k) noise ->
  (forall f, (f < kept n k)%nat -> expected es w (fun e => error_total axes (errors natoms (noise e (f * k)%nat) (p_indices p0) (p_drift_indices p0))) = s) ->
  (exists g g' t, jump_diffusion_analyzer X (of_parsed p0) u g = Ok (an0, g') /\ nth_error (b_dt (an_diff an0)) j = Some t /\ nth_error (b_n (an_diff an0)) j = Some v0) ->
  (forall e, In e es -> exists g g' t, jump_diffusion_analyzer X (of_parsed (p e)) u g = Ok (an e, g') /\ nth_error (b_dt (an_diff (an e))) j = Some t
     /\ nth_error (b_n (an_diff (an e))) j = Some (v e)) ->
  exists m, nth_error (p_intervals p0) (j * Z.to_nat (u_sub_sample_dt u)) = Some (Z.of_nat m) /\ (0 < m <= kept n k)%nat /\ expected es w v = (v0 + added (kept n k) m s)%R.
Proof. exact @C119_mstd_proof. Qed.
Print Assumptions C119_mstd.
(** The same for the displacement of charge. *)
Theorem C119_mscd : forall G Seed RS (X : Ext R G Seed RS) (E : Type) (es : list E) (w : E -> R) x (p : E -> Parsed R) (an : E -> Analyzer R) (v : E -> R)
    y p0 an0 v0 (noise : E -> nat -> nat -> V3 R) i circ cell types vol n natoms k a u,
  faithful_read i circ cell types vol n natoms k y a p0 -> (forall e, In e es -> faithful_read i circ cell types vol n natoms k (x e) a (p e)) ->
  (forall e f b, In e es -> (f < kept n k)%nat -> (b < natoms)%nat -> cart cell (x e (f * k)%nat b) = plus3 (cart cell (y (f * k)%nat b)) (noise e (f * k)%nat b)) ->
  0 < u_sub_sample_dt u -> u_block u = false -> forall q j s, (forall l, q = QArray l -> length l = length (p_indices p0)) -> white_noise es w all_axes natoms k (kept n k) noise ->
  (forall f, (f < kept n k)%nat -> expected es w (fun e => error_charge (charges q (length (p_indices p0))) (errors natoms (noise e (f * k)%nat) (p_indices p0) (p_drift_indices p0))) = s) ->
  (exists g g' t, conductivity_analyzer X (of_parsed p0) q u g = Ok (an0, g') /\ nth_error (b_dt (an_diff an0)) j = Some t /\ nth_error (b_n (an_diff an0)) j = Some v0) ->
  (forall e, In e es -> exists g g' t, conductivity_analyzer X (of_parsed (p e)) q u g = Ok (an e, g') /\ nth_error (b_dt (an_diff (an e))) j = Some t
     /\ nth_error (b_n (an_diff (an e))) j = Some (v e)) ->
  exists m, nth_error (p_intervals p0) (j * Z.to_nat (u_sub_sample_dt u)) = Some (Z.of_nat m) /\ (0 < m <= kept n k)%nat /\ expected es w v = (v0 + added (kept n k) m s)%R.
Proof. exact @C119_mscd_proof. Qed.
Print Assumptions C119_mscd.
(** A constant added to all values changes the intercept of the fitted line and not its slope, whatever the weights. *)
Theorem C119_slope : forall W dt ns g c d,
  gls_solution W dt (map (Rplus d) ns) g (c + d)%R <-> gls_solution W dt ns g c.
Proof. exact C119_line_proof. Qed.
Print Assumptions C119_slope.
(** Without an intercept the slope changes. *)
Theorem C119_through_origin_refuted : exists W dt ns d g g', positive_definite W /\ gls_solution_no_intercept W dt ns g /\ gls_solution_no_intercept W dt (map (Rplus d) ns) g' /\ g' <> g.
Proof. exact C119_origin_proof. Qed.
Print Assumptions C119_through_origin_refuted.
(** That all intervals are shifted by the same amount is false: in the example below, not the interval of one frame. *)
Theorem C119_same_shift_refuted : forall G Seed RS (X : Ext R G Seed RS) circ (g : G), exists p an v p0 an0 v0,
  faithful_read Ase circ unit_cell ["Li"; "O"]%string 1%R 4 2 1 (walk steady) walk_params p0
  /\ diffusion_analyzer X (of_parsed p0) (demo_boot 1 "xyz") g = Ok (an0, g) /\ nth_error (b_n (an_diff an0)) 0 = Some v0
  /\ (forall e, In e four -> faithful_read Ase circ unit_cell ["Li"; "O"]%string 1%R 4 2 1 (walk (shaken_walk e)) walk_params (p e)
       /\ diffusion_analyzer X (of_parsed (p e)) (demo_boot 1 "xyz") g = Ok (an e, g) /\ nth_error (b_n (an_diff (an e))) 0 = Some (v e))
  /\ (forall e f b, cart unit_cell (walk (shaken_walk e) f b) = plus3 (cart unit_cell (walk steady f b)) (li_noise e f b))
  /\ white_noise four (fun _ => 1 / 16)%R all_axes 2 1 4 li_noise
  /\ (forall f, (f < 4)%nat -> expected four (fun _ => 1 / 16)%R (fun e => error_square all_axes (errors 2 (li_noise e (f * 1)%nat) (p_indices p0) (p_drift_indices p0))) = (1 / 100)%R)
  /\ expected four (fun _ => 1 / 16)%R v <> (v0 + 2 * (1 / 100))%R.
Proof. exact C119_refuted_proof. Qed.
Print Assumptions C119_same_shift_refuted.
(** A Li atom moving steadily along x, with an error of 1/10 to the right or left in every frame: all sixteen runs. *)
Example C119_example : forall G Seed RS (X : Ext R G Seed RS) circ (g : G), exists p an p0 an0,
  faithful_read Ase circ unit_cell ["Li"; "O"]%string 1%R 4 2 1 (walk steady) walk_params p0
  /\ diffusion_analyzer X (of_parsed p0) (demo_boot 1 "xyz") g = Ok (an0, g) /\ b_dt (an_diff an0) = [1; 2]%R /\ p_intervals p0 = [1; 2]
  /\ (forall e, In e four -> faithful_read Ase circ unit_cell ["Li"; "O"]%string 1%R 4 2 1 (walk (shaken_walk e)) walk_params (p e)
       /\ diffusion_analyzer X (of_parsed (p e)) (demo_boot 1 "xyz") g = Ok (an e, g) /\ b_dt (an_diff (an e)) = [1; 2]%R)
  /\ (forall e f b, cart unit_cell (walk (shaken_walk e) f b) = plus3 (cart unit_cell (walk steady f b)) (li_noise e f b))
  /\ white_noise four (fun _ => 1 / 16)%R all_axes 2 1 4 li_noise
  /\ (forall f, (f < 4)%nat -> expected four (fun _ => 1 / 16)%R (fun e => error_square all_axes (errors 2 (li_noise e (f * 1)%nat) (p_indices p0) (p_drift_indices p0))) = (1 / 100)%R).
Proof. exact C119_example_proof. Qed.
