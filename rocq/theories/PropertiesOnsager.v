(** * PropertiesOnsager: C125, conductivity as a sum over pairs of ions *)
From Verif Require Import Base Spec SpecParser SpecStats SpecRun SpecPersist SpecOnsager ModelParser ModelDiffusion ModelHdf ModelAnalyzer ProofsTraj ProofsStats ProofsCollective ProofsOnsager.
From Coq Require Import Reals.
Open Scope Z_scope.

(** ** C125 *)
(** The mean squared charge displacement of every interval is the sum over pairs of ions of charge times charge times
    how far the two move together, numbers that are symmetric, make every such sum nonnegative and depend on the
    displacements only, not on the charges. *)
Theorem C125_pairs : forall G Seed RS (X : Ext R G Seed RS) d u natoms,
  0 < u_sub_sample_dt u -> u_block u = false -> Forall arr_wf (an_disp_3d d) -> Forall (fun x => length (a_rows x) = natoms) (an_disp_3d d) ->
  forall q g an g' j (v : R), (forall l, q = QArray l -> length l = natoms) -> conductivity_analyzer X d q u g = Ok (an, g') -> nth_error (b_n (an_diff an)) j = Some v ->
  exists arr, nth_error (an_disp_3d d) (j * Z.to_nat (u_sub_sample_dt u)) = Some arr /\ v = over_pairs natoms (charges q natoms) (charges q natoms) (together arr)
    /\ (forall a b, together arr a b = together arr b a) /\ forall q' : list R, length q' = natoms -> (0 <= over_pairs natoms q' q' (together arr))%R.
Proof. exact @C125_pairs_proof. Qed.
Print Assumptions C125_pairs.
(** The part of two groups of ions moving together: run each group with the charges of the other set to zero, and both.
    The difference is twice the sum over pairs across the groups, at most twice the geometric mean of the two. *)
Theorem C125_groups : forall G Seed RS (X : Ext R G Seed RS) d u natoms,
  0 < u_sub_sample_dt u -> u_block u = false -> Forall arr_wf (an_disp_3d d) -> Forall (fun x => length (a_rows x) = natoms) (an_disp_3d d) ->
  forall q1 q2 g g1 g2 h h1 h2 an an1 an2 j (v v1 v2 : R), length q1 = natoms -> length q2 = natoms ->
  conductivity_analyzer X d (QArray q1) u g1 = Ok (an1, h1) -> conductivity_analyzer X d (QArray q2) u g2 = Ok (an2, h2) ->
  conductivity_analyzer X d (QArray (add_charges q1 q2)) u g = Ok (an, h) ->
  nth_error (b_n (an_diff an1)) j = Some v1 -> nth_error (b_n (an_diff an2)) j = Some v2 -> nth_error (b_n (an_diff an)) j = Some v ->
  (exists arr, nth_error (an_disp_3d d) (j * Z.to_nat (u_sub_sample_dt u)) = Some arr /\ (v - v1 - v2 = 2 * over_pairs natoms q1 q2 (together arr))%R)
  /\ ((v - v1 - v2) * (v - v1 - v2) <= 4 * v1 * v2)%R.
Proof. exact @C125_three_proof. Qed.
Print Assumptions C125_groups.
(** So charges added and subtracted obey the parallelogram law. *)
Theorem C125_parallelogram : forall G Seed RS (X : Ext R G Seed RS) d u natoms,
  0 < u_sub_sample_dt u -> u_block u = false -> Forall arr_wf (an_disp_3d d) -> Forall (fun x => length (a_rows x) = natoms) (an_disp_3d d) ->
  forall q1 q2 g1 g2 g3 g4 h1 h2 h3 h4 an1 an2 an3 an4 j (v1 v2 v3 v4 : R), length q1 = natoms -> length q2 = natoms ->
  conductivity_analyzer X d (QArray q1) u g1 = Ok (an1, h1) -> conductivity_analyzer X d (QArray q2) u g2 = Ok (an2, h2) ->
  conductivity_analyzer X d (QArray (add_charges q1 q2)) u g3 = Ok (an3, h3) -> conductivity_analyzer X d (QArray (subtract_charges q1 q2)) u g4 = Ok (an4, h4) ->
  nth_error (b_n (an_diff an1)) j = Some v1 -> nth_error (b_n (an_diff an2)) j = Some v2 -> nth_error (b_n (an_diff an3)) j = Some v3 -> nth_error (b_n (an_diff an4)) j = Some v4 ->
  (v3 + v4 = 2 * v1 + 2 * v2)%R.
Proof. exact @C125_law_proof. Qed.
Print Assumptions C125_parallelogram.
(** The sum over each ion with itself is what the diffusion analyser reports, and if no two ions move together, the
    charge displacement is what it says (Nernst and Einstein). *)
Theorem C125_self : forall G Seed RS (X : Ext R G Seed RS) d u natoms,
  0 < u_sub_sample_dt u -> u_block u = false -> Forall arr_wf (an_disp_3d d) -> Forall (fun x => length (a_rows x) = natoms) (an_disp_3d d) ->
  forall q g g1 h h1 an an1 j (v m : R), names (pystr_text (u_dimension u)) all_axes -> (forall l, q = QArray l -> length l = natoms) ->
  conductivity_analyzer X d q u g = Ok (an, h) -> diffusion_analyzer X d u g1 = Ok (an1, h1) ->
  nth_error (b_n (an_diff an)) j = Some v -> nth_error (b_n (an_diff an1)) j = Some m ->
  exists arr, nth_error (an_disp_3d d) (j * Z.to_nat (u_sub_sample_dt u)) = Some arr
    /\ (INR natoms * m = rsum (map (fun a => together arr a a) (seq 0 natoms)))%R
    /\ ((forall a b, (a < natoms)%nat -> (b < natoms)%nat -> a <> b -> together arr a b = 0%R) ->
        v = rsum (map (fun a => nth a (charges q natoms) 0 * nth a (charges q natoms) 0 * together arr a a)%R (seq 0 natoms))
        /\ forall c, q = QScalar c -> (v = c * c * (INR natoms * m))%R).
Proof. exact @C125_self_proof. Qed.
Print Assumptions C125_self.
(** The conductivities of two groups of ions do not add up to that of both: two ions that move alike. *)
Theorem C125_additive_refuted : forall G Seed RS (X : Ext R G Seed RS) (g : G), exists d q1 q2 a1 a2 a, length q1 = 2%nat /\ length q2 = 2%nat
  /\ conductivity_analyzer X d (QArray q1) (demo_boot 1 "xyz") g = Ok (a1, g) /\ conductivity_analyzer X d (QArray q2) (demo_boot 1 "xyz") g = Ok (a2, g)
  /\ conductivity_analyzer X d (QArray (add_charges q1 q2)) (demo_boot 1 "xyz") g = Ok (a, g)
  /\ b_n (an_diff a1) = [5 / 2]%R /\ b_n (an_diff a2) = [5 / 2]%R /\ b_n (an_diff a) = [10]%R.
Proof. exact C125_refuted_proof. Qed.
Print Assumptions C125_additive_refuted.
(** They meet the hypotheses, ... *)
Example C125_example : forall G Seed RS (X : Ext R G Seed RS) (g : G), let d := mkAnalyzer [1;2]%R duo [4;3]%R (Some 1%R) in
  exists a1 a2 a3 a4 a5, conductivity_analyzer X d (QArray [1; 0]%R) (demo_boot 1 "xyz") g = Ok (a1, g) /\ conductivity_analyzer X d (QArray [0; 1]%R) (demo_boot 1 "xyz") g = Ok (a2, g)
  /\ conductivity_analyzer X d (QArray (add_charges [1; 0] [0; 1])%R) (demo_boot 1 "xyz") g = Ok (a3, g)
  /\ conductivity_analyzer X d (QArray (subtract_charges [1; 0] [0; 1])%R) (demo_boot 1 "xyz") g = Ok (a4, g) /\ diffusion_analyzer X d (demo_boot 1 "xyz") g = Ok (a5, g)
  /\ b_n (an_diff a1) = [5 / 2]%R /\ b_n (an_diff a2) = [5 / 2]%R /\ b_n (an_diff a3) = [10]%R /\ b_n (an_diff a4) = [0]%R
  /\ Forall arr_wf (an_disp_3d d) /\ Forall (fun d => length (a_rows d) = 2%nat) (an_disp_3d d).
Proof. exact C125_example_proof. Qed.
(** ... and two ions of charge 2 moving at right angles those of C125_self. *)
Example C125_self_example : forall G Seed RS (X : Ext R G Seed RS) (g : G), let d := mkAnalyzer [1;2]%R [crossing; crossing] [4;3]%R (Some 1%R) in
  exists a1 a2 v m, conductivity_analyzer X d (QScalar 2%R) (demo_boot 1 "xyz") g = Ok (a1, g) /\ diffusion_analyzer X d (demo_boot 1 "xyz") g = Ok (a2, g)
  /\ nth_error (b_n (an_diff a1)) 0 = Some v /\ nth_error (b_n (an_diff a2)) 0 = Some m /\ v = 30%R
  /\ nth_error (an_disp_3d d) 0 = Some crossing /\ (forall a b, (a < 2)%nat -> (b < 2)%nat -> a <> b -> together crossing a b = 0%R).
Proof. exact C125_self_example_proof. Qed.
