(** * PropertiesAxes: C114, collective displacements and conductivities along chosen axes *)
From Verif Require Import Base Spec SpecParser SpecStats SpecFit SpecRun SpecAnalyzer SpecAxes ModelParser ModelDiffusion ModelHdf ModelAnalyzer ProofsStats ProofsFit2 ProofsNernst ProofsAxes.
From Coq Require Import Reals Permutation.
Open Scope Z_scope.

(** ** C114
    Results along single axes should add up. Jump diffusion does. *)
(** (Missing from the full statement: the same for charge displacements, refuted below.) *)
Theorem C114_jump_partial : forall G Seed RS (X : Ext R G Seed RS) u u1 u2 axes a1 a2 dts disps n_o g g1 g2 b b1 b2 h h1 h2,
  0 < u_sub_sample_dt u -> u_sub_sample_dt u1 = u_sub_sample_dt u -> u_sub_sample_dt u2 = u_sub_sample_dt u ->
    u_block u = false -> u_block u1 = false -> u_block u2 = false -> names (pystr_text (u_dimension u)) axes -> names (pystr_text (u_dimension u1)) a1 -> names (pystr_text (u_dimension u2)) a2 ->
    Permutation axes (a1 ++ a2)%list -> Forall arr_wf disps ->
    mstd_bootstrap X u dts disps n_o g = Ok (b, h) -> mstd_bootstrap X u1 dts disps n_o g1 = Ok (b1, h1) -> mstd_bootstrap X u2 dts disps n_o g2 = Ok (b2, h2) ->
    forall i m x y, nth_error (b_n b) i = Some m -> nth_error (b_n b1) i = Some x -> nth_error (b_n b2) i = Some y -> m = (x + y)%R.
Proof. exact @C114_jump_proof. Qed.
Print Assumptions C114_jump_partial.
(** Charge displacements do not: motion along y with unit charge gives 1 along x, 1 along y and 1 along both. *)
Theorem C114_refuted : forall G Seed RS (X : Ext R G Seed RS) (g : G), exists d bx bY bxy,
  conductivity_analyzer X d (QScalar 1%R) (demo_boot 1 "x") g = Ok (bx, g) /\ conductivity_analyzer X d (QScalar 1%R) (demo_boot 1 "y") g = Ok (bY, g)
  /\ conductivity_analyzer X d (QScalar 1%R) (demo_boot 1 "xy") g = Ok (bxy, g)
  /\ b_n (an_diff bx) = [1]%R /\ b_n (an_diff bY) = [1]%R /\ b_n (an_diff bxy) = [1]%R.
Proof. exact C114_refuted_proof. Qed.
Print Assumptions C114_refuted.
(** Nothing that a fit of the conductivity looks at depends on the axes, for any data and charges. *)
Theorem C114_charge_ignores_axes : forall G Seed RS (X : Ext R G Seed RS) u u' dts disps q n_o g g' b b' h h' natoms,
  0 < u_sub_sample_dt u -> u_sub_sample_dt u' = u_sub_sample_dt u -> u_block u = false -> u_block u' = false ->
    Forall arr_wf disps -> Forall (fun d => length (a_rows d) = natoms) disps -> (forall l, q = QArray l -> length l = natoms) ->
    mscd_bootstrap X u dts disps q n_o g = Ok (b, h) -> mscd_bootstrap X u' dts disps q n_o g' = Ok (b', h') -> same_charge_data b b'.
Proof. exact @C114_charge_proof. Qed.
Print Assumptions C114_charge_ignores_axes.
(** So with the same random numbers the conductivity along a set of axes is the one along another set times the ratio of their sizes:
    along "x" it is always three times the total. *)
Theorem C114_sigma : forall G Seed RS (X : Ext R G Seed RS) k d q u u' axes axes' g g' an an' h h' p T g2 ac g3 natoms,
  0 < u_sub_sample_dt u -> u_sub_sample_dt u' = u_sub_sample_dt u -> u_block u = false -> u_block u' = false ->
    names (pystr_text (u_dimension u)) axes -> names (pystr_text (u_dimension u')) axes' ->
    Forall arr_wf (an_disp_3d d) -> Forall (fun d => length (a_rows d) = natoms) (an_disp_3d d) -> (forall l, q = QArray l -> length l = natoms) ->
    conductivity_analyzer X d q u g = Ok (an, h) -> conductivity_analyzer X d q u' g' = Ok (an', h') -> an_conductivity X k an p T g2 = (ac, g3, Ok tt) ->
    exists ac' s, an_conductivity X k an' p T g2 = (ac', g3, Ok tt) /\ b_sigma (an_diff ac) = Some s
      /\ b_sigma (an_diff ac') = Some (map (fun x => INR (length axes) / INR (length axes') * x)%R s).
Proof. exact @C114_sigma_proof. Qed.
Print Assumptions C114_sigma.
(** Two runs and a fit that meet the hypotheses. *)
Example C114_example : forall k g,
  exists an an' ac, conductivity_analyzer (demo_ext 1 6) demo_volume (QScalar 1%R) (demo_boot 1 "xyz") g = Ok (an, g)
  /\ conductivity_analyzer (demo_ext 1 6) demo_volume (QScalar 1%R) (demo_boot 1 "x") g = Ok (an', g)
  /\ an_conductivity (demo_ext 1 6) k an (demo_fit 1 true) 300%R g = (ac, 8%nat, Ok tt)
  /\ Forall arr_wf (an_disp_3d demo_volume) /\ Forall (fun d => length (a_rows d) = 2%nat) (an_disp_3d demo_volume).
Proof. exact C114_example_proof. Qed.
