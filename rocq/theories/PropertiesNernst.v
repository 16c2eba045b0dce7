(** * PropertiesNernst: C77 conductivity, jump diffusion and diffusion agree with each other *)
From Verif Require Import Base Spec SpecStats SpecFit SpecGls SpecSym ModelParser ModelDiffusion ModelHdf ModelAnalyzer
  ProofsStats ProofsFit2 SpecRun ProofsNernst.
From Coq Require Import Reals.
Open Scope Z_scope.

(** ** C77
    With unit charges of one sign and all three axes the two collective analysers are the same
    object, whatever the options (block averaging, resampling) and the random numbers. *)
Theorem C77_unit_charges : forall G Seed RS (X : Ext R G Seed RS) u dts disps q n_o g natoms (c : R), 0 < u_sub_sample_dt u -> Forall arr_wf disps ->
  Forall (fun d => length (a_rows d) = natoms) disps -> (forall l, q = QArray l -> length l = natoms) ->
  Forall (fun x => x = c) (charges q natoms) -> (c * c = 1)%R -> names (pystr_text (u_dimension u)) all_axes ->
  mscd_bootstrap X u dts disps q n_o g = mstd_bootstrap X u dts disps n_o g.
Proof. exact @C77_same_proof. Qed.
Print Assumptions C77_unit_charges.
(** Then every conductivity sample is the Nernst-Einstein conductivity of the corresponding
    jump-diffusion sample, with the same random numbers. *)
Theorem C77_nernst_einstein : forall G Seed RS (X : Ext R G Seed RS) k d q u g an g1 p T V aj gj natoms (c : R), 0 < u_sub_sample_dt u -> (0 < natoms)%nat ->
  Forall arr_wf (an_disp_3d d) ->
  Forall (fun d => length (a_rows d) = natoms) (an_disp_3d d) -> (forall l, q = QArray l -> length l = natoms) ->
  Forall (fun x => x = c) (charges q natoms) -> (c * c = 1)%R -> names (pystr_text (u_dimension u)) all_axes ->
  an_volume d = Some V -> k_NA k <> 0%R -> k_R k <> 0%R -> T <> 0%R -> V <> 0%R ->
  jump_diffusion_analyzer X d u g = Ok (an, g1) -> an_jump_diffusion X an p g1 = (aj, gj, Ok tt) ->
  exists ac dj, conductivity_analyzer X d q u g = Ok (an, g1) /\ an_conductivity X k an p T g1 = (ac, gj, Ok tt)
    /\ b_DJ (an_diff aj) = Some dj
    /\ b_sigma (an_diff ac) = Some (map (fun D => in_milli (nernst_einstein (k_NA k) (k_e k) (k_R k) (in_cm3 V) T (INR natoms * D))) dj).
Proof. exact @C77_nernst_proof. Qed.
Print Assumptions C77_nernst_einstein.
Example C77_example : forall g, exists an aj,
  jump_diffusion_analyzer (demo_ext 1 6) demo_volume (demo_boot 1 "xyz") g = Ok (an, g)
  /\ an_jump_diffusion (demo_ext 1 6) an (demo_fit 1 true) g = (aj, 8%nat, Ok tt)
  /\ b_DJ (an_diff aj) = Some (repeat (1 / 20000)%R 4)
  /\ Forall arr_wf (an_disp_3d demo_volume) /\ Forall (fun d => length (a_rows d) = 2%nat) (an_disp_3d demo_volume)
  /\ Forall (fun x => x = (-1)%R) (charges (QArray [-1;-1]%R) 2) /\ (-1 * -1 = 1)%R /\ names (pystr_text (u_dimension (demo_boot 1 "xyz"))) all_axes.
Proof. exact C77_example_proof. Qed.
(** The sign convention is irrelevant, for any charges and axes. *)
Theorem C77_sign : forall G Seed RS (X : Ext R G Seed RS) u dts disps q n_o g natoms, 0 < u_sub_sample_dt u -> Forall arr_wf disps ->
  Forall (fun d => length (a_rows d) = natoms) disps -> (forall l, q = QArray l -> length l = natoms) ->
  mscd_bootstrap X u dts disps (scale_charge (-1) q) n_o g = mscd_bootstrap X u dts disps q n_o g.
Proof. exact @C77_sign_proof. Qed.
Print Assumptions C77_sign.
(** Equal charges [c] scale the collective statistics like a length unit; C75 then gives the
    covariance matrix and the best line. *)
Theorem C77_equal_charges : forall G Seed RS (X : Ext R G Seed RS) u dts disps q n_o g b g' g1 b1 g1' natoms (c : R), 0 < u_sub_sample_dt u -> u_block u = false ->
  Forall arr_wf disps ->
  Forall (fun d => length (a_rows d) = natoms) disps -> (forall l, q = QArray l -> length l = natoms) ->
  Forall (fun x => x = c) (charges q natoms) -> names (pystr_text (u_dimension u)) all_axes ->
  mstd_bootstrap X u dts disps n_o g = Ok (b, g') -> mscd_bootstrap X u dts disps q n_o g1 = Ok (b1, g1') ->
  scaled_statistics c b b1.
Proof. exact @C77_uniform_proof. Qed.
Print Assumptions C77_equal_charges.
(** A single atom: jump diffusion has the data of tracer diffusion, for the first half of the intervals. *)
Theorem C77_one_atom : forall G Seed RS (X : Ext R G Seed RS) u dts disps n_o g g1 b b1 g' g1',
  0 < u_sub_sample_dt u -> u_block u = false -> Forall arr_wf disps ->
  Forall (fun d => length (a_rows d) = 1%nat) disps ->
  msd_bootstrap X u dts disps n_o g = Ok (b, g') -> mstd_bootstrap X u dts disps n_o g1 = Ok (b1, g1') ->
  exists k, k = Nat.div (length (b_displacements b)) 2
    /\ b_n b1 = firstn k (b_n b) /\ b_v b1 = firstn k (b_v b) /\ b_dt b1 = firstn k (b_dt b) /\ b_n_o b1 = firstn k (b_n_o b).
Proof. exact @C77_one_atom_proof. Qed.
Print Assumptions C77_one_atom.
(** Refuted for fewer axes: motion along y, analysed along x with unit charge, has no jump
    diffusion but conducts. *)
Theorem C77_chosen_axes_refuted : forall G Seed RS (X : Ext R G Seed RS) (g : G), exists d an cn,
  jump_diffusion_analyzer X d (demo_boot 1 "x") g = Ok (an, g) /\ b_n (an_diff an) = [0]%R
  /\ conductivity_analyzer X d (QScalar 1%R) (demo_boot 1 "x") g = Ok (cn, g) /\ b_n (an_diff cn) = [1]%R.
Proof. exact @C77_axes_refuted_proof. Qed.
Print Assumptions C77_chosen_axes_refuted.
