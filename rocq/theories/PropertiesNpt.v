(** * PropertiesNpt: C92 trajectories with a changing cell *)
From Verif Require Import Base Spec SpecParser SpecStats ModelParser ModelDiffusion ModelHdf ModelAnalyzer
  ProofsTraj ProofsStats SpecRun SpecTrue ProofsTrue SpecNpt ProofsNpt.
From Coq Require Import Reals.
Open Scope Z_scope.

(** ** C92
    At constant pressure the cell changes from frame to frame. The reported displacement should be the true one,
    [cartesian_path]; when an atom has crossed a boundary it is not, although all coordinates are stored inside the cell
    and all steps are small. *)
Theorem C92_crossing_refuted : exists (l : nat -> M3 R) (x : nat -> nat -> V3 R) (img : nat -> nat -> V3 Z),
  (forall f, cell_volume (l f) <> 0%R) /\ small_npt_steps 3 1 1 l x img
  /\ (forall f, (f < 3)%nat -> let c := plus3 (x f 0%nat) (ivec (img f 0%nat)) in (0 <= vx c < 1 /\ 0 <= vy c < 1 /\ 0 <= vz c < 1)%R)
  /\ exists d, displacements 1 (frames_of ["Li"]%string 1%R 3 1 (fun f a => plus3 (x f a) (ivec (img f a))) l) = Ok d
    /\ arr_entry d 0 2 = Some (mkV (13 / 20) 0 0)%R /\ cartesian_path l 1 x 0 2 = mkV (3 / 4)%R 0%R 0%R.
Proof. exact C92_crossing_refuted_proof. Qed.
Print Assumptions C92_crossing_refuted.
(** What is reported is the true displacement plus, for every change of the cell, as many cells as the atom is stored
    away from its true position. *)
Theorem C92_displacements_partial : forall (l : nat -> M3 R) types vol n natoms k x (img : nat -> nat -> V3 Z), (0 < n)%nat -> (0 < k)%nat ->
  (forall f, (f < n)%nat -> cell_volume (l f) <> 0%R) -> small_npt_steps n natoms k l x img ->
  displacements (Z.of_nat k) (frames_of types vol n natoms (fun f a => plus3 (x f a) (ivec (img f a))) l)
  = Ok (table natoms (kept n k) (fun a t => plus3 (cartesian_path l k x a t) (breathing l k img a t))).
Proof. exact C92_displacements_proof. Qed.
Print Assumptions C92_displacements_partial.
(** It is the true displacement when positions are stored unwrapped, ... *)
Theorem C92_unwrapped : forall l k x img a t, (forall f, (f < t)%nat -> img (f * k)%nat a = mkV 0 0 0) -> tor_path l k x img a t = cartesian_path l k x a t.
Proof. exact C92_unwrapped_proof. Qed.
Print Assumptions C92_unwrapped.
(** ... when the cell does not change (C01), ... *)
Theorem C92_fixed_cell : forall l k x img a t, (forall f, l f = l 0%nat) -> tor_path l k x img a t = cart (l 0%nat) (minus3 (x (t * k)%nat a) (x 0%nat a)).
Proof. exact C92_fixed_cell_proof. Qed.
Print Assumptions C92_fixed_cell.
(** ... and, as a displacement of the stored image, when the atom never crosses a boundary. *)
Theorem C92_never_crossing : forall l k x img a v t, (forall f, (f < t)%nat -> img (f * k)%nat a = v) ->
  tor_path l k x img a t = minus3 (cart (l (t * k)%nat) (plus3 (x (t * k)%nat a) (ivec v))) (cart (l 0%nat) (plus3 (x 0%nat a) (ivec v))).
Proof. exact C92_never_crossing_proof. Qed.
Print Assumptions C92_never_crossing.

(** The reported mean squared displacements follow, for all three interfaces (as in C81, with [tor_path] instead of the
    true positions). *)
Theorem C92_reported_msd_partial : forall G Seed RS (X : Ext R G Seed RS) i circ l types vol n natoms k x img a p u axes g an g',
  npt_read i circ l types vol n natoms k x img a p -> 0 < u_sub_sample_dt u -> u_block u = false -> names (pystr_text (u_dimension u)) axes ->
  diffusion_analyzer X (of_parsed p) u g = Ok (an, g') -> forall j t, nth_error (b_dt (an_diff an)) j = Some t ->
  exists m, nth_error (p_intervals p) (j * Z.to_nat (u_sub_sample_dt u)) = Some (Z.of_nat m) /\ nth_error (p_delta_t p) (j * Z.to_nat (u_sub_sample_dt u)) = Some t
    /\ (0 < m <= kept n k)%nat
    /\ let T := kept n k in let pos t b := tor_path l k x img b t in
       nth_error (b_n (an_diff an)) j = Some ((INR (T - m) * true_msd axes natoms 1 pos (p_indices p) (p_drift_indices p) T m
           + square_between axes natoms 1 pos (p_indices p) (p_drift_indices p) 0 (m - 1)) / INR (T - m + 1))%R.
Proof. exact @C92_reported_proof. Qed.
Print Assumptions C92_reported_msd_partial.
(** The volume kept for conductivities is that of the first frame. *)
Theorem C92_volume_is_first : forall i circ l types vol n natoms k x img a p, npt_read i circ l types vol n natoms k x img a p -> p_volume p = Some (vol 0%nat).
Proof. exact C92_volume_proof. Qed.
Print Assumptions C92_volume_is_first.
(** So atoms that rest in a changing cell, all of them stored at the same place in every frame, are reported to move, in
    spite of the drift correction; and the volume is not the mean volume. *)
Theorem C92_resting_atoms_refuted : forall G Seed RS (X : Ext R G Seed RS) circ (g : G), exists p an,
  npt_read Ase circ growing ["Li"; "O"]%string growing_volumes 4 2 1 resting no_image walk_params p
  /\ p_drift_indices p = [1] /\ diffusion_analyzer X (of_parsed p) (demo_boot 1 "xyz") g = Ok (an, g)
  /\ nth_error (b_n (an_diff an)) 0 = Some (3 / 1600)%R /\ nth_error (b_n (an_diff an)) 1 = Some (3 / 400)%R
  /\ p_volume p = Some 1%R /\ average (tab 4 growing_volumes) = (23 / 20)%R.
Proof. exact C92_refuted_proof. Qed.
Print Assumptions C92_resting_atoms_refuted.
Example C92_example : small_npt_steps 3 1 1 growing crossing folded.
Proof. exact crossing_small. Qed.
