(** * PropertiesSym: C59 and C60, other frames of reference and other length units *)
From Verif Require Import Base Spec SpecParser SpecStats SpecFit ModelParser ModelDiffusion ModelHdf ModelAnalyzer
  ProofsTraj ProofsStats ProofsSym SpecRun SpecSym.
From Coq Require Import Reals Lra.
Open Scope Z_scope.

(** ** C59

    [turn_frame Q] maps the cell of a frame with the matrix [Q] and keeps the fractional coordinates;
    [turn_cartesian_frame Q] maps cell and Cartesian coordinates. [outcome f r] is [r] with the value
    replaced: exceptions are the same ones. *)
Theorem C59_ase : forall Q, invertible Q -> forall geo circ frames a,
  ase_parser geo circ (map (turn_frame Q) frames) a = outcome (turn_parsed Q) (ase_parser geo circ frames a).
Proof. exact C59_ase_proof. Qed.
Print Assumptions C59_ase.
Theorem C59_pymatgen : forall Q, invertible Q -> forall geo circ frames a,
  pymatgen_parser geo circ (map (turn_frame Q) frames) a = outcome (turn_parsed Q) (pymatgen_parser geo circ frames a).
Proof. exact C59_pymatgen_proof. Qed.
Print Assumptions C59_pymatgen.
Theorem C59_mdanalysis : forall Q, invertible Q -> forall geo circ frames a,
  mda_parser geo circ (map (turn_cartesian_frame Q) frames) a = outcome (turn_parsed Q) (mda_parser geo circ frames a).
Proof. exact C59_mda_proof. Qed.
Print Assumptions C59_mdanalysis.
(** One or several trajectories read by an analyser. *)
Theorem C59_trajectories : forall Q geo circ a parse t dtype, invertible Q -> In parse [ase_parser; pymatgen_parser] ->
  from_frames (fun fs => parse geo circ fs a) (map_trajectory (turn_frame Q) t) dtype
  = outcome (turn_data Q) (from_frames (fun fs => parse geo circ fs a) t dtype).
Proof. exact C59_frames_proof. Qed.
Print Assumptions C59_trajectories.
Theorem C59_universes : forall Q geo circ a t dtype, invertible Q ->
  from_universe (fun fs => mda_parser geo circ fs a) (map_trajectory (turn_cartesian_frame Q) t) dtype
  = outcome (turn_data Q) (from_universe (fun fs => mda_parser geo circ fs a) t dtype).
Proof. exact C59_universe_proof. Qed.
Print Assumptions C59_universes.
(** [carries Q axes axes']: the squared length along [axes'] after the map is the squared length
    along [axes] before. Then analysing the mapped data along [axes'] gives the same object
    except for the stored displacements and the name of the dimension ([turn_analyzer]); the
    generator is left in the same state. The collective charge motion always uses all three axes. *)
Theorem C59_analysis : forall {G Seed RS} (X : Ext R G Seed RS) Q dim dim' axes axes', carries Q axes axes' ->
  names (pystr_text dim) axes -> names (pystr_text dim') axes' ->
  exists sl, forall d u g, u_dimension u = dim ->
    diffusion_analyzer X (turn_data Q d) (with_dim u dim') g
      = outcome (on_first (turn_analyzer Q dim' sl)) (diffusion_analyzer X d u g)
    /\ jump_diffusion_analyzer X (turn_data Q d) (with_dim u dim') g
      = outcome (on_first (turn_analyzer Q dim' sl)) (jump_diffusion_analyzer X d u g)
    /\ (carries Q all_axes all_axes -> forall q,
        conductivity_analyzer X (turn_data Q d) q (with_dim u dim') g
        = outcome (on_first (turn_analyzer Q dim' sl)) (conductivity_analyzer X d q u g)).
Proof. exact @C59_analysis_proof. Qed.
Print Assumptions C59_analysis.
(** Fits on the mapped analyser give the same samples, or the same exception, and use the generator
    in the same way. *)
Theorem C59_fits : forall {G Seed RS} (X : Ext R G Seed RS) Q dim sl a (p : GLSParams R RS) g,
  an_diffusion X (turn_analyzer Q dim sl a) p g = turn_run Q dim sl (an_diffusion X a p g)
  /\ an_jump_diffusion X (turn_analyzer Q dim sl a) p g = turn_run Q dim sl (an_jump_diffusion X a p g)
  /\ (carries Q all_axes all_axes -> forall k t,
      an_conductivity X k (turn_analyzer Q dim sl a) p t g = turn_run Q dim sl (an_conductivity X k a p t g)).
Proof. exact @C59_fit_proof. Qed.
Print Assumptions C59_fits.
(** A rotation keeps volumes and is invertible. *)
Theorem C59_rotations_keep_volume : forall Q, carries Q all_axes all_axes ->
  invertible Q /\ forall v, turn_volume Q v = v.
Proof. exact C59_volume_proof. Qed.
Print Assumptions C59_rotations_keep_volume.
(** A rotation by the angle of the 3-4-5 triangle about z, a quarter turn taking x to y, and a
    trajectory of two atoms that a rotation may be applied to. *)
Example C59_example : carries tilt all_axes all_axes /\ carries tilt [AX; AY] [AX; AY] /\ carries quarter_turn [AX] [AY]
  /\ forall circ, let a := hop_params 1 (PyFloat 1%R) (mkOptions (Some 1) (Some 3) 100 "linear" "multi-origin" 8 8)%R in
     exists p, ase_parser geomspace_R circ (hop_frames 3) a = Ok p
       /\ ase_parser geomspace_R circ (map (turn_frame tilt) (hop_frames 3)) a = Ok (turn_parsed tilt p).
Proof. exact C59_example_proof. Qed.

(** ** C60

    [scaling c] is the change of length unit by the factor [c]. *)
Theorem C60_trajectories : forall c geo circ a parse t dtype d, c <> 0%R -> In parse [ase_parser; pymatgen_parser] ->
  from_frames (fun fs => parse geo circ fs a) t dtype = Ok d ->
  exists d', from_frames (fun fs => parse geo circ fs a) (map_trajectory (turn_frame (scaling c)) t) dtype = Ok d'
    /\ an_disp_3d d' = map (scale_arr c) (an_disp_3d d) /\ an_delta_t d' = an_delta_t d /\ an_n_o d' = an_n_o d
    /\ an_volume d' = option_map (fun v => Rabs (c * c * c) * v)%R (an_volume d).
Proof. exact C60_frames_proof. Qed.
Print Assumptions C60_trajectories.
Theorem C60_universes : forall c geo circ a t dtype d, c <> 0%R ->
  from_universe (fun fs => mda_parser geo circ fs a) t dtype = Ok d ->
  exists d', from_universe (fun fs => mda_parser geo circ fs a) (map_trajectory (turn_cartesian_frame (scaling c)) t) dtype = Ok d'
    /\ an_disp_3d d' = map (scale_arr c) (an_disp_3d d) /\ an_delta_t d' = an_delta_t d /\ an_n_o d' = an_n_o d
    /\ an_volume d' = option_map (fun v => Rabs (c * c * c) * v)%R (an_volume d).
Proof. exact C60_universe_proof. Qed.
Print Assumptions C60_universes.
Theorem C60_msd : forall {G Seed RS} (X : Ext R G Seed RS) u dts disps n_o c g b g' g1 b1 g1',
  0 < u_sub_sample_dt u -> u_block u = false ->
  msd_bootstrap X u dts disps n_o g = Ok (b, g') ->
  msd_bootstrap X u dts (map (turn_arr (scaling c)) disps) n_o g1 = Ok (b1, g1') -> scaled_statistics c b b1.
Proof. exact @C60_msd_proof. Qed.
Print Assumptions C60_msd.
Theorem C60_mstd : forall {G Seed RS} (X : Ext R G Seed RS) u dts disps n_o c g b g' g1 b1 g1',
  0 < u_sub_sample_dt u -> u_block u = false -> Forall arr_wf disps ->
  mstd_bootstrap X u dts disps n_o g = Ok (b, g') ->
  mstd_bootstrap X u dts (map (turn_arr (scaling c)) disps) n_o g1 = Ok (b1, g1') -> scaled_statistics c b b1.
Proof. exact @C60_mstd_proof. Qed.
Print Assumptions C60_mstd.
Theorem C60_mscd : forall {G Seed RS} (X : Ext R G Seed RS) u dts disps q n_o c natoms g b g' g1 b1 g1',
  0 < u_sub_sample_dt u -> u_block u = false -> Forall arr_wf disps ->
  Forall (fun d => length (a_rows d) = natoms) disps -> (forall l, q = QArray l -> length l = natoms) ->
  mscd_bootstrap X u dts disps q n_o g = Ok (b, g') ->
  mscd_bootstrap X u dts (map (turn_arr (scaling c)) disps) q n_o g1 = Ok (b1, g1') -> scaled_statistics c b b1.
Proof. exact @C60_mscd_proof. Qed.
Print Assumptions C60_mscd.
(** The non-Gaussian parameter has no unit. *)
Theorem C60_non_gaussian : forall {G Seed RS} (X : Ext R G Seed RS) u dts disps n_o c g b g' g1 b1 g1' i,
  0 < u_sub_sample_dt u -> u_block u = false -> c <> 0%R ->
  msd_bootstrap X u dts disps n_o g = Ok (b, g') ->
  msd_bootstrap X u dts (map (turn_arr (scaling c)) disps) n_o g1 = Ok (b1, g1') ->
  nth_error (b_n b) i <> Some 0%R -> nth_error (b_ngp b1) i = nth_error (b_ngp b) i.
Proof. exact @C60_ngp_proof. Qed.
Print Assumptions C60_non_gaussian.
(** Nanometres to angstrom. *)
Example C60_example : forall {G Seed RS} (X : Ext R G Seed RS) (g : G), exists b b1,
  msd_bootstrap X (demo_boot 1 "xyz") [1;2]%R demo_disps [4;3]%R g = Ok (b, g)
  /\ msd_bootstrap X (demo_boot 1 "xyz") [1;2]%R (map (turn_arr (scaling 10)) demo_disps) [4;3]%R g = Ok (b1, g)
  /\ b_n b = [2; 4]%R /\ b_n b1 = [200; 400]%R.
Proof. exact @C60_example_proof. Qed.
