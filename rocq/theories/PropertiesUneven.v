(** * PropertiesUneven: C120, frames stored at uneven times *)
From Verif Require Import Base Spec SpecParser SpecStats SpecRun SpecPool SpecTrue SpecColl SpecNoise SpecUneven ModelParser ModelDiffusion ModelHdf ModelAnalyzer ProofsTraj ProofsStats ProofsTrue ProofsUneven.
From Coq Require Import Reals.
Open Scope Z_scope.

(** ** C120 *)
(** Runs of a diffusing system, the mean squared displacement growing by [c] per unit of real time, whose used
    frames were taken at the times [tau] while the analysis takes them to be evenly spaced: on average the report
    for an interval of [m] frames is [c] times the time that its windows really span. *)
Theorem C120_msd : forall G Seed RS (X : Ext R G Seed RS) (E : Type) (es : list E) (w : E -> R) x (p : E -> Parsed R) (an : E -> Analyzer R) (v : E -> R)
    i circ cell types vol n natoms k a u,
  es <> [] -> (forall e, In e es -> faithful_read i circ cell types vol n natoms k (x e) a (p e)) -> 0 < u_sub_sample_dt u -> u_block u = false ->
  forall axes j (c : R) (tau : nat -> R), names (pystr_text (u_dimension u)) axes ->
  (forall f g, (f <= g)%nat -> (g < kept n k)%nat ->
     expected es w (fun e => square_between axes natoms k (fun f b => cart cell (x e f b)) (p_indices (p e)) (p_drift_indices (p e)) f g) = (c * (tau g - tau f))%R) ->
  (forall e, In e es -> exists g g' t, diffusion_analyzer X (of_parsed (p e)) u g = Ok (an e, g') /\ nth_error (b_dt (an_diff (an e))) j = Some t
     /\ nth_error (b_n (an_diff (an e))) j = Some (v e)) ->
  exists m, (0 < m <= kept n k)%nat /\ (forall e, In e es -> nth_error (p_intervals (p e)) (j * Z.to_nat (u_sub_sample_dt u)) = Some (Z.of_nat m))
    /\ expected es w v = (c * spanned (kept n k) m tau)%R.
Proof. exact @C120_msd_proof. Qed.
Print Assumptions C120_msd.
(** The same for the total displacement. *)
Theorem C120_mstd : forall G Seed RS (X : Ext R G Seed RS) (E : Type) (es : list E) (w : E -> R) x (p : E -> Parsed R) (an : E -> Analyzer R) (v : E -> R)
    i circ cell types vol n natoms k a u,
  es <> [] -> (forall e, In e es -> faithful_read i circ cell types vol n natoms k (x e) a (p e)) -> 0 < u_sub_sample_dt u -> u_block u = false ->
  forall axes j (c : R) (tau : nat -> R), names (pystr_text (u_dimension u)) axes ->
  (forall f g, (f <= g)%nat -> (g < kept n k)%nat ->
     expected es w (fun e => total_between axes natoms k (fun f b => cart cell (x e f b)) (p_indices (p e)) (p_drift_indices (p e)) f g) = (c * (tau g - tau f))%R) ->
  (forall e, In e es -> exists g g' t, jump_diffusion_analyzer X (of_parsed (p e)) u g = Ok (an e, g') /\ nth_error (b_dt (an_diff (an e))) j = Some t
     /\ nth_error (b_n (an_diff (an e))) j = Some (v e)) ->
  exists m, (0 < m <= kept n k)%nat /\ (forall e, In e es -> nth_error (p_intervals (p e)) (j * Z.to_nat (u_sub_sample_dt u)) = Some (Z.of_nat m))
    /\ expected es w v = (c * spanned (kept n k) m tau)%R.
Proof. exact @C120_mstd_proof. Qed.
Print Assumptions C120_mstd.
(** The same for the displacement of charge. *)
Theorem C120_mscd : forall G Seed RS (X : Ext R G Seed RS) (E : Type) (es : list E) (w : E -> R) x (p : E -> Parsed R) (an : E -> Analyzer R) (v : E -> R)
    i circ cell types vol n natoms k a u,
  es <> [] -> (forall e, In e es -> faithful_read i circ cell types vol n natoms k (x e) a (p e)) -> 0 < u_sub_sample_dt u -> u_block u = false ->
  forall q j (c : R) (tau : nat -> R), (forall e l, In e es -> q = QArray l -> length l = length (p_indices (p e))) ->
  (forall f g, (f <= g)%nat -> (g < kept n k)%nat ->
     expected es w (fun e => charge_between (charges q (length (p_indices (p e)))) natoms k (fun f b => cart cell (x e f b)) (p_indices (p e)) (p_drift_indices (p e)) f g) = (c * (tau g - tau f))%R) ->
  (forall e, In e es -> exists g g' t, conductivity_analyzer X (of_parsed (p e)) q u g = Ok (an e, g') /\ nth_error (b_dt (an_diff (an e))) j = Some t
     /\ nth_error (b_n (an_diff (an e))) j = Some (v e)) ->
  exists m, (0 < m <= kept n k)%nat /\ (forall e, In e es -> nth_error (p_intervals (p e)) (j * Z.to_nat (u_sub_sample_dt u)) = Some (Z.of_nat m))
    /\ expected es w v = (c * spanned (kept n k) m tau)%R.
Proof. exact @C120_mscd_proof. Qed.
Print Assumptions C120_mscd.
(** If consecutive frames are between [lo] and [hi] apart, it lies between what frames evenly [lo] and [hi] apart would give; ... *)
Theorem C120_bounds : forall T m tau lo hi,
  (0 < m <= T)%nat -> (forall f, (S f < T)%nat -> (lo <= tau (S f) - tau f <= hi)%R) ->
  (lo * evenly T m <= spanned T m tau <= hi * evenly T m)%R.
Proof. exact spanned_bounds. Qed.
Print Assumptions C120_bounds.
(** ... evenly spaced frames give what C81 says; ... *)
Theorem C120_even : forall T m delta,
  (0 < m <= T)%nat -> (spanned T m (fun f => delta * INR f) = delta * evenly T m)%R.
Proof. exact spanned_even. Qed.
Print Assumptions C120_even.
(** ... and frames stored twice, as at restarts, make it smaller, R of them by at most R (m+1) / (T-m+1) frames. *)
Theorem C120_repeated_frames : forall T m delta rep,
  (0 < m <= T)%nat -> (0 <= delta)%R -> repeats T rep ->
  (delta * (evenly T m - INR (rep (T - 1)%nat) * (INR m + 1) / INR (T - m + 1)) <= spanned T m (with_repeats delta rep) <= delta * evenly T m)%R.
Proof. exact spanned_repeats. Qed.
Print Assumptions C120_repeated_frames.
(** So the report is not the one of the evenly stored trajectory: random walks with one of four frames stored twice
    give 1/100 on average instead of 1/60 for an interval said to be 2. *)
Theorem C120_uneven_frames_refuted : forall G Seed RS (X : Ext R G Seed RS) circ (g : G), exists p an v,
  (forall e, In e tosses -> faithful_read Ase circ unit_cell ["Li"; "O"]%string 1%R 4 2 1 (walk (stuttering e)) walk_params (p e)
     /\ diffusion_analyzer X (of_parsed (p e)) (demo_boot 1 "xyz") g = Ok (an e, g) /\ nth_error (b_dt (an_diff (an e))) 1 = Some 2%R /\ nth_error (b_n (an_diff (an e))) 1 = Some (v e))
  /\ (forall f h, (f <= h)%nat -> (h < 4)%nat -> expected tosses (fun _ => 1 / 8)%R (fun e =>
        square_between all_axes 2 1 (fun f b => cart unit_cell (walk (stuttering e) f b)) (p_indices (p e)) (p_drift_indices (p e)) f h)
      = (1 / 100 * (with_repeats 1 once h - with_repeats 1 once f))%R)
  /\ expected tosses (fun _ => 1 / 8)%R v = (1 / 100)%R /\ (1 / 100 * evenly 4 2 = 1 / 60)%R.
Proof. exact C120_refuted_proof. Qed.
Print Assumptions C120_uneven_frames_refuted.
(** These walks meet the hypotheses. *)
Example C120_example : forall G Seed RS (X : Ext R G Seed RS) circ (g : G), exists p an,
  (forall e, In e tosses -> faithful_read Ase circ unit_cell ["Li"; "O"]%string 1%R 4 2 1 (walk (stuttering e)) walk_params (p e)
     /\ diffusion_analyzer X (of_parsed (p e)) (demo_boot 1 "xyz") g = Ok (an e, g) /\ b_dt (an_diff (an e)) = [1; 2]%R /\ p_intervals (p e) = [1; 2])
  /\ (forall f h, (f <= h)%nat -> (h < 4)%nat -> expected tosses (fun _ => 1 / 8)%R (fun e =>
        square_between all_axes 2 1 (fun f b => cart unit_cell (walk (stuttering e) f b)) (p_indices (p e)) (p_drift_indices (p e)) f h)
      = (1 / 100 * (with_repeats 1 once h - with_repeats 1 once f))%R)
  /\ repeats 4 once.
Proof. exact C120_example_proof. Qed.
