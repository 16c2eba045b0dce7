(** * PropertiesPersist: C124, steps with memory *)
From Verif Require Import Base Spec SpecParser SpecStats SpecRun SpecPool SpecTrue SpecColl SpecNoise SpecUneven SpecFit SpecGls SpecMarkov SpecLong SpecFitErr SpecPersist ModelParser ModelDiffusion ModelHdf ModelAnalyzer ProofsTraj ProofsStats ProofsTrue ProofsNoise ProofsUneven ProofsPersist.
From Coq Require Import Reals.
Open Scope Z_scope.

(** ** C124 *)
(** Runs whose steps remember the earlier ones: on average over the runs, the product of the steps after frames [f] and
    [f + l] is [C l] whatever [f]. On average the report for an interval of [m] frames is then the mean square
    [with_memory C] of a sum of [m] such steps, with the repeated first frame of C81. *)
Theorem C124_msd : forall G Seed RS (X : Ext R G Seed RS) (E : Type) (es : list E) (w : E -> R) x (p : E -> Parsed R) (an : E -> Analyzer R) (v : E -> R)
    i circ cell types vol n natoms k a u,
  es <> [] -> (forall e, In e es -> faithful_read i circ cell types vol n natoms k (x e) a (p e)) -> 0 < u_sub_sample_dt u -> u_block u = false ->
  forall axes j (C : nat -> R), names (pystr_text (u_dimension u)) axes ->
  (forall f l, (S (f + l) < kept n k)%nat ->
     expected es w (fun e => step_square axes natoms k (fun f b => cart cell (x e f b)) (p_indices (p e)) (p_drift_indices (p e)) f (f + l)) = C l) ->
  (forall e, In e es -> exists g g' t, diffusion_analyzer X (of_parsed (p e)) u g = Ok (an e, g') /\ nth_error (b_dt (an_diff (an e))) j = Some t
     /\ nth_error (b_n (an_diff (an e))) j = Some (v e)) ->
  exists m, (0 < m <= kept n k)%nat /\ (forall e, In e es -> nth_error (p_intervals (p e)) (j * Z.to_nat (u_sub_sample_dt u)) = Some (Z.of_nat m))
    /\ expected es w v = ((INR (kept n k - m) * with_memory C m + with_memory C (m - 1)) / INR (kept n k - m + 1))%R.
Proof. exact @C124_msd_proof. Qed.
Print Assumptions C124_msd.
(** The same for the total displacement. *)
Theorem C124_mstd : forall G Seed RS (X : Ext R G Seed RS) (E : Type) (es : list E) (w : E -> R) x (p : E -> Parsed R) (an : E -> Analyzer R) (v : E -> R)
    i circ cell types vol n natoms k a u,
  es <> [] -> (forall e, In e es -> faithful_read i circ cell types vol n natoms k (x e) a (p e)) -> 0 < u_sub_sample_dt u -> u_block u = false ->
  forall axes j (C : nat -> R), names (pystr_text (u_dimension u)) axes ->
  (forall f l, (S (f + l) < kept n k)%nat ->
     expected es w (fun e => step_total axes natoms k (fun f b => cart cell (x e f b)) (p_indices (p e)) (p_drift_indices (p e)) f (f + l)) = C l) ->
  (forall e, In e es -> exists g g' t, jump_diffusion_analyzer X (of_parsed (p e)) u g = Ok (an e, g') /\ nth_error (b_dt (an_diff (an e))) j = Some t
     /\ nth_error (b_n (an_diff (an e))) j = Some (v e)) ->
  exists m, (0 < m <= kept n k)%nat /\ (forall e, In e es -> nth_error (p_intervals (p e)) (j * Z.to_nat (u_sub_sample_dt u)) = Some (Z.of_nat m))
    /\ expected es w v = ((INR (kept n k - m) * with_memory C m + with_memory C (m - 1)) / INR (kept n k - m + 1))%R.
Proof. exact @C124_mstd_proof. Qed.
Print Assumptions C124_mstd.
(** The same for the displacement of charge. *)
Theorem C124_mscd : forall G Seed RS (X : Ext R G Seed RS) (E : Type) (es : list E) (w : E -> R) x (p : E -> Parsed R) (an : E -> Analyzer R) (v : E -> R)
    i circ cell types vol n natoms k a u,
  es <> [] -> (forall e, In e es -> faithful_read i circ cell types vol n natoms k (x e) a (p e)) -> 0 < u_sub_sample_dt u -> u_block u = false ->
  forall q j (C : nat -> R), (forall e l, In e es -> q = QArray l -> length l = length (p_indices (p e))) ->
  (forall f l, (S (f + l) < kept n k)%nat ->
     expected es w (fun e => step_charge (charges q (length (p_indices (p e)))) natoms k (fun f b => cart cell (x e f b)) (p_indices (p e)) (p_drift_indices (p e)) f (f + l)) = C l) ->
  (forall e, In e es -> exists g g' t, conductivity_analyzer X (of_parsed (p e)) q u g = Ok (an e, g') /\ nth_error (b_dt (an_diff (an e))) j = Some t
     /\ nth_error (b_n (an_diff (an e))) j = Some (v e)) ->
  exists m, (0 < m <= kept n k)%nat /\ (forall e, In e es -> nth_error (p_intervals (p e)) (j * Z.to_nat (u_sub_sample_dt u)) = Some (Z.of_nat m))
    /\ expected es w v = ((INR (kept n k - m) * with_memory C m + with_memory C (m - 1)) / INR (kept n k - m + 1))%R.
Proof. exact @C124_mscd_proof. Qed.
Print Assumptions C124_mscd.
(** From one interval to the next that mean square grows by the sum of the products over all delays, earlier and later,
    that fit in it (the Green-Kubo sum cut off there); ... *)
Theorem C124_increments : forall (C : nat -> R) m,
  (with_memory C 0 = 0 /\ with_memory C 1 = C 0%nat /\ with_memory C (S m) - with_memory C m = memory_slope C (S m))%R.
Proof. exact C124_increment_proof. Qed.
Print Assumptions C124_increments.
(** ... so that with a memory shorter than [J] frames the report is, from [J] frames on, the straight line of slope
    [memory_slope C J], the whole Green-Kubo sum, shifted by [memory_offset C J]; ... *)
Theorem C124_straight : forall (C : nat -> R) J T m,
  ((1 <= J)%nat -> (forall j, (J <= j)%nat -> C j = 0) -> (J <= m <= T)%nat ->
  (INR (T - m) * with_memory C m + with_memory C (m - 1)) / INR (T - m + 1) = memory_slope C J * evenly T m - memory_offset C J)%R.
Proof. exact C124_straight_proof. Qed.
Print Assumptions C124_straight.
(** ... and without memory it is the line through the origin of C81. *)
Theorem C124_no_memory : forall (C : nat -> R) m,
  ((forall j, (1 <= j)%nat -> C j = 0) -> with_memory C m = INR m * C 0%nat)%R.
Proof. exact C124_white_proof. Qed.
Print Assumptions C124_no_memory.
(** So C100 applies to runs with memory that are fitted with an intercept from intervals of [J - 1] frames, [delta] apart in
    time, on: the true displacements it asks for lie on a line, and the slope it then finds is the Green-Kubo sum. *)
Theorem C124_fit : forall (C : nat -> R) J ms dt (delta : R),
  (delta <> 0 -> (1 <= J)%nat -> (forall j, (J <= j)%nat -> C j = 0) -> length ms = length dt ->
  (forall i, (i < length dt)%nat -> (J - 1 <= nth i ms 0)%nat /\ vec_entry dt i = delta * INR (nth i ms 0%nat)) ->
  straight (with_memory C) ms dt (memory_slope C J / delta) (- memory_offset C J))%R.
Proof. exact C124_fit_proof. Qed.
Print Assumptions C124_fit.
Theorem C124_windows : forall E (es : list E) (w : E -> R) axes natoms k T (pos : E -> nat -> nat -> V3 R) (idx fw : E -> list Z) (C : nat -> R),
  (forall f l, (S (f + l) < T)%nat -> mean_over es w (fun e => step_square axes natoms k (pos e) (idx e) (fw e) f (f + l)) = C l) ->
  forall f l, (f + l < T)%nat -> mean_over es w (fun e => square_between axes natoms k (pos e) (idx e) (fw e) f (f + l)) = with_memory C l.
Proof. exact @C124_windows_proof. Qed.
Print Assumptions C124_windows.
(** The slope of a line from the origin is not that sum, however many runs are averaged: steps that are the mean of
    two tosses, one shared with the next step, give 7/600 for an interval of two frames where the sum gives 1/60. *)
Theorem C124_from_origin_refuted : forall G Seed RS (X : Ext R G Seed RS) circ (g : G), exists p an v,
  (forall e, In e four -> faithful_read Ase circ unit_cell ["Li"; "O"]%string 1%R 4 2 1 (walk (dragged e)) walk_params (p e)
     /\ diffusion_analyzer X (of_parsed (p e)) (demo_boot 1 "xyz") g = Ok (an e, g) /\ nth_error (b_dt (an_diff (an e))) 1 = Some 2%R /\ nth_error (b_n (an_diff (an e))) 1 = Some (v e))
  /\ (forall f l, (S (f + l) < 4)%nat -> expected four (fun _ => 1 / 16)%R (fun e =>
        step_square all_axes 2 1 (fun f b => cart unit_cell (walk (dragged e) f b)) (p_indices (p e)) (p_drift_indices (p e)) f (f + l)) = shared l)
  /\ expected four (fun _ => 1 / 16)%R v = (7 / 600)%R /\ (memory_slope shared 2 * evenly 4 2 = 1 / 60)%R.
Proof. exact C124_refuted_proof. Qed.
Print Assumptions C124_from_origin_refuted.
(** These runs meet the hypotheses, with a memory of one frame. *)
Example C124_example : forall G Seed RS (X : Ext R G Seed RS) circ (g : G), exists p an,
  (forall e, In e four -> faithful_read Ase circ unit_cell ["Li"; "O"]%string 1%R 4 2 1 (walk (dragged e)) walk_params (p e)
     /\ diffusion_analyzer X (of_parsed (p e)) (demo_boot 1 "xyz") g = Ok (an e, g) /\ b_dt (an_diff (an e)) = [1; 2]%R /\ p_intervals (p e) = [1; 2])
  /\ (forall f l, (S (f + l) < 4)%nat -> expected four (fun _ => 1 / 16)%R (fun e =>
        step_square all_axes 2 1 (fun f b => cart unit_cell (walk (dragged e) f b)) (p_indices (p e)) (p_drift_indices (p e)) f (f + l)) = shared l)
  /\ (forall j, (2 <= j)%nat -> shared j = 0%R) /\ memory_slope shared 2 = (1 / 100)%R /\ memory_offset shared 2 = (1 / 200)%R.
Proof. exact C124_example_proof. Qed.
