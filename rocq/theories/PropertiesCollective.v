(** * PropertiesCollective: C72 collective against single-particle displacements *)
From Verif Require Import Base Spec SpecParser SpecStats SpecAnalyzer ModelParser ModelDiffusion ModelHdf ModelAnalyzer
  ProofsStats ProofsAnalyzer SpecRun SpecInterfaces ProofsCollective.
From Coq Require Import Reals.
Open Scope Z_scope.

(** ** C72

    At the same interval the MSTD of N atoms is at most N^2 times the MSD, with equality when all
    atoms move alike. *)
Theorem C72_mstd : forall G Seed RS (X : Ext R G Seed RS) u dts disps n_o n_o' g g1 b b1 g' g1' natoms i m m1,
  0 < u_sub_sample_dt u -> u_block u = false -> Forall arr_wf disps -> Forall (fun d => length (a_rows d) = natoms) disps ->
  msd_bootstrap X u dts disps n_o g = Ok (b, g') -> mstd_bootstrap X u dts disps n_o' g1 = Ok (b1, g1') ->
  nth_error (b_n b) i = Some m -> nth_error (b_n b1) i = Some m1 ->
  (0 <= m1 <= INR natoms * INR natoms * m)%R /\ (Forall move_alike disps -> m1 = INR natoms * INR natoms * m)%R.
Proof. exact @C72_mstd_proof. Qed.
Print Assumptions C72_mstd.
(** The MSCD (all three axes) is at most N times the sum of the squared charges times the MSD; when
    all atoms move alike it is the square of the total charge times the MSD: 0 for a neutral system. *)
Theorem C72_mscd : forall G Seed RS (X : Ext R G Seed RS) u dts disps q n_o n_o' g g1 b b1 g' g1' natoms i m m1,
  0 < u_sub_sample_dt u -> u_block u = false -> Forall arr_wf disps -> Forall (fun d => length (a_rows d) = natoms) disps ->
  (forall l, q = QArray l -> length l = natoms) -> names (pystr_text (u_dimension u)) all_axes ->
  msd_bootstrap X u dts disps n_o g = Ok (b, g') -> mscd_bootstrap X u dts disps q n_o' g1 = Ok (b1, g1') ->
  nth_error (b_n b) i = Some m -> nth_error (b_n b1) i = Some m1 ->
  (m1 <= INR natoms * rsum (map (fun c => c * c) (charges q natoms)) * m)%R
  /\ (Forall move_alike disps -> m1 = rsum (charges q natoms) * rsum (charges q natoms) * m)%R.
Proof. exact @C72_mscd_proof. Qed.
Print Assumptions C72_mscd.
(** For the analysers of one trajectory. *)
Theorem C72_trajectory : forall G Seed RS (X : Ext R G Seed RS) (parse : parser_of) circ (a : Params R) t p u g g1 an an1 g' g1' i m m1,
  In parse parsers -> parse geomspace_R circ t a = Ok p -> 0 < u_sub_sample_dt u -> u_block u = false ->
  diffusion_analyzer X (of_parsed p) u g = Ok (an, g') -> jump_diffusion_analyzer X (of_parsed p) u g1 = Ok (an1, g1') ->
  nth_error (b_n (an_diff an)) i = Some m -> nth_error (b_n (an_diff an1)) i = Some m1 ->
  (0 <= m1 <= INR (length (p_indices p)) * INR (length (p_indices p)) * m)%R.
Proof. exact C72_end_proof. Qed.
Print Assumptions C72_trajectory.
Example C72_example : forall G Seed RS (X : Ext R G Seed RS) (g : G), exists b b1 b2,
  msd_bootstrap X (demo_boot 1 "xyz") [1;2]%R duo [4;3]%R g = Ok (b, g)
  /\ mstd_bootstrap X (demo_boot 1 "xyz") [1;2]%R duo [4;3]%R g = Ok (b1, g)
  /\ mscd_bootstrap X (demo_boot 1 "xyz") [1;2]%R duo (QArray [1;-1]%R) [4;3]%R g = Ok (b2, g)
  /\ Forall arr_wf duo /\ Forall (fun d => length (a_rows d) = 2%nat) duo /\ Forall move_alike duo.
Proof. exact C72_example_proof. Qed.
