(** * PropertiesAlias: C116, trajectories stored too rarely *)
From Verif Require Import Base Spec SpecParser SpecStats SpecRun SpecTrue SpecAlias ModelParser ModelDiffusion ModelHdf ModelAnalyzer ProofsTraj ProofsStats ProofsTrue ProofsAlias.
From Coq Require Import Reals.
Open Scope nat_scope.

(** ** C116 *)
(** However far atoms move between used frames, what is read is a faithful reading of the shortest path through the same
    positions, so all that is proved about faithful readings holds of that path. *)
Theorem C116_read : forall i circ cell types vol n natoms k x y a p,
  any_read i circ cell types vol n natoms k x a p -> shortest_path n natoms k x y -> faithful_read i circ cell types vol n natoms k y a p.
Proof. exact C116_read_proof. Qed.
Print Assumptions C116_read.
(** Every trajectory has a shortest path. *)
Theorem C116_exists : forall n natoms k (x : nat -> nat -> V3 R), 0 < k -> exists y, shortest_path n natoms k x y.
Proof. exact C116_exists_proof. Qed.
Print Assumptions C116_exists.
(** At the used frames there is only one. *)
Theorem C116_unique : forall n natoms k x y y', shortest_path n natoms k x y -> shortest_path n natoms k x y' ->
  forall f a, (f = 0 \/ f * k < n) -> a < natoms -> y' (f * k) a = y (f * k) a.
Proof. exact C116_unique_proof. Qed.
Print Assumptions C116_unique.
(** No path through the same positions has shorter steps, along any cell vector; in particular not the true one. *)
Theorem C116_shorter : forall n natoms k x y, shortest_path n natoms k x y -> forall y', same_images x y' ->
  forall f a, S f * k < n -> a < natoms -> no_longer (minus3 (y (S f * k) a) (y (f * k) a)) (minus3 (y' (S f * k) a) (y' (f * k) a)).
Proof. exact C116_shorter_proof. Qed.
Print Assumptions C116_shorter.
(** A faithful reading is one whose true path is the shortest. *)
Theorem C116_same : forall i circ cell types vol n natoms k x a p,
  faithful_read i circ cell types vol n natoms k x a p <-> any_read i circ cell types vol n natoms k x a p /\ shortest_path n natoms k x x.
Proof. exact C116_same_proof. Qed.
Print Assumptions C116_same.
(** Trajectories through the same positions cannot be told apart. *)
Theorem C116_images : forall i circ cell types vol n natoms k x y a p, same_images x y ->
  any_read i circ cell types vol n natoms k x a p -> any_read i circ cell types vol n natoms k y a p.
Proof. exact C116_images_proof. Qed.
Print Assumptions C116_images.
(** Uniform motion by [v] cells per used frame appears as uniform motion by the [w] that differs from it by whole cells and is
    within half a cell. *)
Theorem C116_alias : forall n natoms k x y (v w : nat -> V3 R), shortest_path n natoms k x y -> 0 < k ->
  (forall f a, f * k < n -> a < natoms -> x (f * k) a = plus3 (x 0 a) (scale3 (INR f) (v a))) ->
  (forall a, a < natoms -> within_half (w a) /\ exists z, v a = plus3 (w a) (ivec z)) ->
  forall f a, f * k < n -> a < natoms -> y (f * k) a = plus3 (x 0 a) (scale3 (INR f) (w a)).
Proof. exact C116_alias_proof. Qed.
Print Assumptions C116_alias.
(** Whatever the input, the mean squared displacement reported for [m] used frames is at most m^2 times the squared extent of the
    cell; without a framework, a quarter of that. *)
Theorem C116_bound : forall G Seed RS (X : Ext R G Seed RS) i circ cell types vol n natoms k x a p u axes g an g',
  any_read i circ cell types vol n natoms k x a p -> (0 < u_sub_sample_dt u)%Z -> u_block u = false -> names (pystr_text (u_dimension u)) axes ->
    diffusion_analyzer X (of_parsed p) u g = Ok (an, g') -> forall j t, nth_error (b_dt (an_diff an)) j = Some t ->
    exists m v, nth_error (p_intervals p) (j * Z.to_nat (u_sub_sample_dt u)) = Some (Z.of_nat m) /\ 0 < m <= kept n k /\ nth_error (b_n (an_diff an)) j = Some v
      /\ (0 <= v <= INR m * INR m * squared_extent axes cell / (if p_drift_indices p then 4 else 1))%R.
Proof. exact @C116_bound_proof. Qed.
Print Assumptions C116_bound.
(** If atoms move by less than 1/(2ck) of the cell per stored frame, using every (ck)-th frame instead of every k-th alters no
    displacement at the frames still used. *)
Theorem C116_thinning : forall cell types vol n natoms c k (x : nat -> nat -> V3 R) (img : nat -> nat -> V3 Z), cell_volume cell <> 0%R -> 0 < n -> 0 < k -> 0 < c -> slow (c * k) n natoms x ->
  let frames := frames_of types vol n natoms (fun f a => plus3 (x f a) (ivec (img f a))) (fun _ => cell) in
  exists d d', displacements (Z.of_nat k) frames = Ok d /\ displacements (Z.of_nat (c * k)) frames = Ok d'
    /\ forall a f, a < natoms -> f * (c * k) < n -> arr_entry d' a f = arr_entry d a (f * c) /\ exists v, arr_entry d' a f = Some v.
Proof. exact C116_thinning_proof. Qed.
Print Assumptions C116_thinning.
(** That the reported mean squared displacement is about the true one regardless of how rarely frames are stored is false: an atom
    going 9/10 of the cell per frame is reported as if it went 1/10. *)
Theorem C116_undersampled_refuted : forall G Seed RS (X : Ext R G Seed RS) circ (g : G), exists x y a p an,
  any_read Ase circ unit_cell ["Li"; "O"]%string 1%R 4 2 1 x a p /\ shortest_path 4 2 1 x y
  /\ diffusion_analyzer X (of_parsed p) (demo_boot 1 "xyz") g = Ok (an, g)
  /\ nth_error (p_intervals p) 0 = Some 1%Z /\ nth_error (b_dt (an_diff an)) 0 = Some 1%R
  /\ nth_error (b_n (an_diff an)) 0 = Some (3 / 400)%R
  /\ true_msd all_axes 2 1 (fun f b => cart unit_cell (x f b)) (p_indices p) (p_drift_indices p) 4 1 = (81 / 100)%R.
Proof. exact C116_refuted_proof. Qed.
Print Assumptions C116_undersampled_refuted.
(** Paths that meet the hypotheses. *)
Example C116_example : forall a, shortest_path 4 2 1 (walk swift) (walk backward)
  /\ (forall f, f * 1 < 4 -> a < 2 -> walk swift (f * 1) a = plus3 (walk swift 0 a) (scale3 (INR f) (walk swift 1 a)))
  /\ (a < 2 -> within_half (walk backward 1 a) /\ exists z, walk swift 1 a = plus3 (walk backward 1 a) (ivec z))
  /\ slow 2 4 2 (walk steady) /\ ~ small_steps 4 2 1 (walk swift).
Proof. exact C116_example_proof. Qed.
