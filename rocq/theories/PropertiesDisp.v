(** * PropertiesDisp: C01-C05 *)
From Verif Require Import Base Spec ModelParser SpecParser Lemmas ProofsDisp SpecRun.
From Coq Require Import Reals Lra.
Open Scope string_scope.
Open Scope R_scope.

(** ** C01: unwrapping recovers the true displacement

    [x f a] is the true (never wrapped) fractional position of atom [a] in frame [f]; the parser
    is given the positions moved by arbitrary whole cells [img f a]. Every [k]-th frame is used. *)
Theorem C01_unwrapping_recovers_true_displacement :
  forall (cell : M3 R) (types : list string) (vol : R) (n natoms k : nat)
         (x : nat -> nat -> V3 R) (img : nat -> nat -> V3 Z),
  cell_volume cell <> 0%R -> (0 < n)%nat -> (0 < k)%nat ->
  (forall f a, (S f * k < n)%nat -> (a < natoms)%nat ->
     within_half (minus3 (x (S f * k)%nat a) (x (f * k)%nat a))) ->
  displacements (Z.of_nat k)
    (frames_of types vol n natoms (fun f a => plus3 (x f a) (ivec (img f a))) (fun _ => cell))
  = Ok (table natoms (kept n k) (fun a f => cart cell (minus3 (x (f * k)%nat a) (x 0%nat a)))).
Proof. exact C01_proof. Qed.
Print Assumptions C01_unwrapping_recovers_true_displacement.

(** A triclinic cell, four frames, two atoms moving at 2/5 of a cell per frame, wrapped back. *)
Example C01_example :
  let cell := mkM (mkV 2 0 0) (mkV 1 3 0) (mkV 0 1 4) in
  let x := fun f a => mkV (2/5 * INR f) (- / 5 * INR f * INR a) 0 in
  displacements 1 (frames_of ["Li"; "Li"] 24 4 2
      (fun f a => plus3 (x f a) (ivec (mkV (- Z.of_nat (f / 3)) 1 (Z.of_nat a - 7))%Z)) (fun _ => cell))
  = Ok (table 2 4 (fun a f => cart cell (minus3 (x f a) (x 0%nat a)))).
Proof.
  intros cell x.
  assert (V : cell_volume cell <> 0%R) by (unfold cell_volume; cbn; lra).
  pose proof (C01_unwrapping_recovers_true_displacement cell ["Li"; "Li"] 24 4 2 1 x
    (fun f a => mkV (- Z.of_nat (f / 3)) 1 (Z.of_nat a - 7))%Z V ltac:(lia) ltac:(lia)) as H.
  rewrite kept_one in H. etransitivity; [apply H|].
  2:{ reflexivity. }
  intros f a Hf Ha. rewrite !Nat.mul_1_r. unfold within_half, x. rewrite S_INR. cbn [vx vy vz minus3].
  assert (A : (INR a = 0 \/ INR a = 1)%R) by (destruct a as [|[|a]]; cbn; auto; lia).
  destruct A as [-> | ->]; lra.
Qed.

(** ** C02: periodic images do not matter in a fixed cell (no small-step assumption) *)
Theorem C02_periodic_images_do_not_matter :
  forall (cell : M3 R) (types : list string) (vol : R) (n natoms k : nat)
         (c : nat -> nat -> V3 R) (img : nat -> nat -> V3 Z),
  (0 < k)%nat ->
  displacements (Z.of_nat k)
    (frames_of types vol n natoms (fun f a => plus3 (c f a) (ivec (img f a))) (fun _ => cell))
  = displacements (Z.of_nat k) (frames_of types vol n natoms c (fun _ => cell)).
Proof. exact C02_proof. Qed.
Print Assumptions C02_periodic_images_do_not_matter.

(** For cells that change with time the statement is false: a one per cent expansion of the cell
    between two frames, an atom at the origin in both; writing the first position one cell away
    changes the reported displacement from 0 to 1/100. *)
Theorem C02_variable_cell_refuted :
  exists (l : nat -> M3 R) (c : nat -> nat -> V3 R) (img : nat -> nat -> V3 Z),
  (forall f, cell_volume (l f) <> 0%R) /\
  exists d d', displacements 1 (frames_of ["Li"] 1 2 1 c l) = Ok d
  /\ displacements 1 (frames_of ["Li"] 1 2 1 (fun f a => plus3 (c f a) (ivec (img f a))) l) = Ok d'
  /\ arr_entry d 0 1 = Some zero3 /\ arr_entry d' 0 1 = Some (mkV (1/100) 0 0)%R.
Proof. exact C02_npt_refuted_proof. Qed.
Print Assumptions C02_variable_cell_refuted.

(** What remains true: images may be changed in any frame after which the cell does not change
    (in particular in the last frame). Missing: frames after which the cell changes. *)
Theorem C02_variable_cell_partial :
  forall (types : list string) (vol : R) (n natoms : nat) (c : nat -> nat -> V3 R) (l : nat -> M3 R)
         (img : nat -> nat -> V3 Z),
  (forall f a, (S f < n)%nat -> (a < natoms)%nat -> l f = l (S f) \/ img f a = mkV 0%Z 0%Z 0%Z) ->
  displacements 1 (frames_of types vol n natoms (fun f a => plus3 (c f a) (ivec (img f a))) l)
  = displacements 1 (frames_of types vol n natoms c l).
Proof. exact images_irrelevant. Qed.
Print Assumptions C02_variable_cell_partial.

(** ** C03: every step is the minimum-image (TOR) step *)
Theorem C03_steps_are_minimum_images :
  forall (types : list string) (vol : R) (n natoms : nat) (c : nat -> nat -> V3 R) (l : nat -> M3 R),
  (0 < n)%nat -> (forall f, (f < n)%nat -> cell_volume (l f) <> 0%R) ->
  exists x, displacements 1 (frames_of types vol n natoms c l) = Ok (table natoms n x)
    /\ (forall a, x a 0%nat = zero3)
    /\ (forall f a, (S f < n)%nat ->
         minimum_image_of (l (S f)) (minus3 (cart (l (S f)) (c (S f) a)) (cart (l f) (c f a)))
                          (minus3 (x a (S f)) (x a f))).
Proof. exact C03_proof. Qed.
Print Assumptions C03_steps_are_minimum_images.

Theorem C03_minimum_image_is_unique :
  forall (cell : M3 R) (raw s s' : V3 R), cell_volume cell <> 0%R ->
  minimum_image_of cell raw s -> minimum_image_of cell raw s' -> s = s'.
Proof. exact minimum_image_unique. Qed.
Print Assumptions C03_minimum_image_is_unique.

(** A step of 7/10 of a unit cell is read as -3/10. *)
Example C03_example :
  minimum_image_of (mkM (mkV 1 0 0) (mkV 0 1 0) (mkV 0 0 1)) (mkV (7/10) 0 0) (mkV (-(3/10)) 0 0).
Proof.
  split.
  - exists (mkV 1 0 0)%Z. apply V3_eq; cbn; lra.
  - exists (mkV (-(3/10)) 0 0). split; [unfold within_half; cbn; lra | apply V3_eq; cbn; lra].
Qed.

(** ** C04: shape, zero start, causality, locality *)
Theorem C04_shape_and_zero_start :
  forall (types : list string) (vol : R) (n natoms : nat) (c : nat -> nat -> V3 R) (l : nat -> M3 R),
  (0 < n)%nat -> (forall f, (f < n)%nat -> cell_volume (l f) <> 0%R) ->
  exists d, displacements 1 (frames_of types vol n natoms c l) = Ok d
    /\ a_obs d = n /\ shape (a_rows d) natoms n
    /\ forall a, (a < natoms)%nat -> arr_entry d a 0 = Some zero3.
Proof. exact C04_shape_proof. Qed.
Print Assumptions C04_shape_and_zero_start.

Theorem C04_later_frames_do_not_matter :
  forall (types : list string) (vol : R) (n m natoms : nat) (c : nat -> nat -> V3 R) (l : nat -> M3 R),
  (0 < m <= n)%nat -> (forall f, (f < n)%nat -> cell_volume (l f) <> 0%R) ->
  exists d d', displacements 1 (frames_of types vol n natoms c l) = Ok d
    /\ displacements 1 (firstn m (frames_of types vol n natoms c l)) = Ok d'
    /\ a_obs d' = m
    /\ a_rows d' = map (firstn m) (a_rows d).
Proof. exact C04_causal_proof. Qed.
Print Assumptions C04_later_frames_do_not_matter.

Theorem C04_other_atoms_do_not_matter :
  forall (types : list string) (vol : R) (n natoms : nat) (c c' : nat -> nat -> V3 R) (l : nat -> M3 R) (a : nat),
  (a < natoms)%nat -> (forall f, (f < n)%nat -> c f a = c' f a) ->
  forall d d', displacements 1 (frames_of types vol n natoms c l) = Ok d ->
    displacements 1 (frames_of types vol n natoms c' l) = Ok d' ->
    nth_error (a_rows d) a = nth_error (a_rows d') a.
Proof. exact C04_local_proof. Qed.
Print Assumptions C04_other_atoms_do_not_matter.

(** Three frames, two atoms, cell growing with time. *)
Example C04_example :
  exists d, displacements 1 (frames_of ["O"; "Li"] 1 3 2 (fun f a => mkV (INR f) (INR a / 3) 0)
     (fun f => mkM (mkV (1 + INR f) 0 0) (mkV 0 1 0) (mkV 0 0 1))) = Ok d
  /\ a_obs d = 3%nat /\ shape (a_rows d) 2 3
  /\ forall a, (a < 2)%nat -> arr_entry d a 0 = Some zero3.
Proof.
  apply C04_shape_and_zero_start; [lia|]. intros f _. unfold cell_volume; cbn.
  pose proof (pos_INR f). lra.
Qed.

(** ** C05: drift correction *)
Theorem C05_no_framework_unchanged : forall d : Arr R, correct_drift [] d = Ok d.
Proof. reflexivity. Qed.
Print Assumptions C05_no_framework_unchanged.

Theorem C05_subtracts_framework_mean :
  forall (N T : nat) (x : nat -> nat -> V3 R) (idx : list Z), idx <> [] -> Forall (valid_site N) idx ->
  correct_drift idx (table N T x)
  = Ok (table N T (fun a t => minus3 (x a t) (average3 (map (fun i => x (site N i) t) idx)))).
Proof. exact C05_formula_proof. Qed.
Print Assumptions C05_subtracts_framework_mean.

Theorem C05_framework_mean_is_zero :
  forall (N T : nat) (x : nat -> nat -> V3 R) (idx : list Z), idx <> [] -> Forall (valid_site N) idx ->
  exists y, correct_drift idx (table N T x) = Ok (table N T y)
    /\ forall t, average3 (map (fun i => y (site N i) t) idx) = zero3.
Proof. exact C05_zero_proof. Qed.
Print Assumptions C05_framework_mean_is_zero.

Theorem C05_uniform_drift_removed :
  forall (N T : nat) (x : nat -> nat -> V3 R) (idx : list Z) (u : nat -> V3 R),
  idx <> [] -> Forall (valid_site N) idx ->
  correct_drift idx (table N T (fun a t => plus3 (x a t) (u t))) = correct_drift idx (table N T x).
Proof. exact C05_uniform_drift_proof. Qed.
Print Assumptions C05_uniform_drift_removed.

Theorem C05_relative_displacements_kept :
  forall (N T : nat) (x : nat -> nat -> V3 R) (idx : list Z), idx <> [] -> Forall (valid_site N) idx ->
  exists y, correct_drift idx (table N T x) = Ok (table N T y)
    /\ forall a b t, minus3 (y a t) (y b t) = minus3 (x a t) (x b t).
Proof. exact C05_relative_proof. Qed.
Print Assumptions C05_relative_displacements_kept.

Theorem C05_idempotent :
  forall (N T : nat) (x : nat -> nat -> V3 R) (idx : list Z) (d : Arr R), Forall (valid_site N) idx ->
  correct_drift idx (table N T x) = Ok d -> correct_drift idx d = Ok d.
Proof. exact C05_idempotent_proof. Qed.
Print Assumptions C05_idempotent.

(** Three atoms, framework atoms 0 and -1 (the last one). *)
Example C05_example :
  correct_drift [0; -1]%Z (table 3 2 (fun a t => mkV (INR a * INR t) 1 0))
  = Ok (table 3 2 (fun a t => minus3 (mkV (INR a * INR t) 1 0)
          (average3 [mkV (0 * INR t) 1 0; mkV (2 * INR t) 1 0])))%R.
Proof.
  rewrite C05_subtracts_framework_mean; [reflexivity | discriminate|].
  repeat constructor; cbn; lia.
Qed.
