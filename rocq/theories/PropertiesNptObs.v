(** * PropertiesNptObs: C07 for changing cells *)
From Verif Require Import Base Spec SpecParser ModelParser SpecRun SpecTrue ProofsTraj ProofsTrue ProofsTraj SpecNpt ProofsNpt ProofsNptObs.
From Coq Require Import Reals.
Open Scope Z_scope.

(** Observation S j of an interval of m frames spans used frames j to j+m exactly; the displacements are those along
    [tor_path] (C92), and the first observation spans m-1 frames as for fixed cells. Missing: the first observation. *)
Theorem C07_changing_cell_partial : forall i circ l types vol n natoms k x img a p, npt_read i circ l types vol n natoms k x img a p ->
  forall q arr, nth_error (p_disp_3d p) q = Some arr -> exists m : nat, (0 < m <= kept n k)%nat /\ nth_error (p_intervals p) q = Some (Z.of_nat m)
    /\ reports_interval natoms (kept n k) 1 (fun t b => tor_path l k x img b t) (p_indices p) (p_drift_indices p) m arr.
Proof. exact C07_npt_proof. Qed.
Print Assumptions C07_changing_cell_partial.
(** When positions are stored unwrapped they are the true displacements. *)
Theorem C07_changing_cell_unwrapped_partial : forall i circ l types vol n natoms k x img a p, npt_read i circ l types vol n natoms k x img a p ->
  (forall f b, img f b = mkV 0 0 0) ->
  forall q arr, nth_error (p_disp_3d p) q = Some arr -> exists m : nat, (0 < m <= kept n k)%nat /\ nth_error (p_intervals p) q = Some (Z.of_nat m)
    /\ reports_interval natoms (kept n k) k (fun f b => cart (l f) (x f b)) (p_indices p) (p_drift_indices p) m arr.
Proof. exact C07_npt_unwrapped_proof. Qed.
Print Assumptions C07_changing_cell_unwrapped_partial.
(** Two intervals in a growing cell. *)
Example C07_changing_cell_example : forall circ, exists p, npt_read Ase circ growing ["Li"; "O"]%string growing_volumes 4 2 1 resting no_image walk_params p
  /\ p_intervals p = [1; 2] /\ length (p_disp_3d p) = 2%nat.
Proof. intros circ. destruct (resting_run circ) as (p & F & E1 & _ & _ & _ & E5 & _). exists p. auto. Qed.
