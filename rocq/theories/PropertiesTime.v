(** * PropertiesTime: C61 time unit, C62 the bootstrap option, C63 thinning beforehand *)
From Verif Require Import Base Spec SpecParser SpecStats SpecFit ModelParser ModelDiffusion ModelHdf ModelAnalyzer
  ProofsTraj ProofsStats ProofsFit2 ProofsTime SpecRun SpecSym.
From Coq Require Import Reals Lra.
Open Scope Z_scope.

(** ** C61

    [retime c] multiplies time_step, min_dt and max_dt by [c]; [retime_parsed], [retime_data],
    [retime_boot] and [retime_analyzer] multiply the times they hold and change nothing else. *)
Theorem C61_ase : forall c, c <> 0%R -> forall geo circ frames a,
  ase_parser geo circ frames (retime c a) = outcome (retime_parsed c) (ase_parser geo circ frames a).
Proof. exact C61_ase_proof. Qed.
Print Assumptions C61_ase.
Theorem C61_mdanalysis : forall c, c <> 0%R -> forall geo circ frames a,
  mda_parser geo circ frames (retime c a) = outcome (retime_parsed c) (mda_parser geo circ frames a).
Proof. exact C61_mda_proof. Qed.
Print Assumptions C61_mdanalysis.
(** An integer time_step makes this parser raise (C22). *)
Theorem C61_pymatgen : forall c, c <> 0%R -> forall geo circ frames a ts, a_time_step a = PyFloat ts ->
  pymatgen_parser geo circ frames (retime c a) = outcome (retime_parsed c) (pymatgen_parser geo circ frames a).
Proof. exact C61_pymatgen_proof. Qed.
Print Assumptions C61_pymatgen.
Theorem C61_trajectories : forall c, c <> 0%R -> forall geo circ a ts t dtype, a_time_step a = PyFloat ts ->
  from_frames (fun fs => ase_parser geo circ fs (retime c a)) t dtype
    = outcome (retime_data c) (from_frames (fun fs => ase_parser geo circ fs a) t dtype)
  /\ from_frames (fun fs => pymatgen_parser geo circ fs (retime c a)) t dtype
    = outcome (retime_data c) (from_frames (fun fs => pymatgen_parser geo circ fs a) t dtype)
  /\ from_universe (fun fs => mda_parser geo circ fs (retime c a)) t dtype
    = outcome (retime_data c) (from_universe (fun fs => mda_parser geo circ fs a) t dtype).
Proof. exact C61_trajectories_proof. Qed.
Print Assumptions C61_trajectories.
Theorem C61_analysis : forall {G Seed RS} (X : Ext R G Seed RS) c d u q g,
  diffusion_analyzer X (retime_data c d) u g = outcome (on_first (retime_analyzer c)) (diffusion_analyzer X d u g)
  /\ jump_diffusion_analyzer X (retime_data c d) u g = outcome (on_first (retime_analyzer c)) (jump_diffusion_analyzer X d u g)
  /\ conductivity_analyzer X (retime_data c d) q u g = outcome (on_first (retime_analyzer c)) (conductivity_analyzer X d q u g).
Proof. exact @C61_analysers_proof. Qed.
Print Assumptions C61_analysis.
(** With start_dt in the new unit the same points are fitted. *)
Theorem C61_regime : forall c start dts, (0 < c)%R ->
  find_regime (c * start)%R 0 (map (Rmult c) dts) = find_regime start 0 dts.
Proof. exact C61_regime_proof. Qed.
Print Assumptions C61_regime.
(** Two atoms, three frames; picoseconds to femtoseconds. *)
Example C61_example : forall circ, let a := hop_params 1 (PyFloat 1%R) (mkOptions (Some 1) (Some 3) 100 "linear" "multi-origin" 8 8)%R in
  exists p, ase_parser geomspace_R circ (hop_frames 3) a = Ok p /\ nth_error (p_intervals p) 0 = Some 1
    /\ ase_parser geomspace_R circ (hop_frames 3) (retime 1000 a) = Ok (retime_parsed 1000 p).
Proof. exact C61_example_proof. Qed.

(** ** C62

    [forget_boot b] is [b] without its bootstrap distributions, means, variances and deviations. *)
Theorem C62_msd : forall {G Seed RS} (X : Ext R G Seed RS) u dts disps n_o g b g' h,
  msd_bootstrap X (with_bootstrap u true) dts disps n_o g = Ok (b, g') ->
  msd_bootstrap X (with_bootstrap u false) dts disps n_o h = Ok (forget_boot b, h).
Proof. exact @C62_msd_proof. Qed.
Print Assumptions C62_msd.
Theorem C62_mstd : forall {G Seed RS} (X : Ext R G Seed RS) u dts disps n_o g b g' h,
  mstd_bootstrap X (with_bootstrap u true) dts disps n_o g = Ok (b, g') ->
  mstd_bootstrap X (with_bootstrap u false) dts disps n_o h = Ok (forget_boot b, h).
Proof. exact @C62_mstd_proof. Qed.
Print Assumptions C62_mstd.
Theorem C62_mscd : forall {G Seed RS} (X : Ext R G Seed RS) u dts disps q n_o g b g' h,
  mscd_bootstrap X (with_bootstrap u true) dts disps q n_o g = Ok (b, g') ->
  mscd_bootstrap X (with_bootstrap u false) dts disps q n_o h = Ok (forget_boot b, h).
Proof. exact @C62_mscd_proof. Qed.
Print Assumptions C62_mscd.
(** Conversely the bootstrap never makes an analysis fail, whatever the normality test says. *)
Theorem C62_succeeds : forall {G Seed RS} (X : Ext R G Seed RS), draws_in_range X -> forall u dts disps n_o b h h',
  u_block u = false -> Forall (fun x => 1 <= x)%R n_o ->
  msd_bootstrap X (with_bootstrap u false) dts disps n_o h = Ok (b, h') ->
  forall g, exists b' g', msd_bootstrap X (with_bootstrap u true) dts disps n_o g = Ok (b', g') /\ forget_boot b' = b.
Proof. exact @C62_succeeds_proof. Qed.
Print Assumptions C62_succeeds.
(** Fits do not look at the bootstrap results. *)
Theorem C62_fits : forall {G Seed RS} (X : Ext R G Seed RS) b g (c : call (RS := RS)),
  run_call X (forget_boot b) g c = forget_state (run_call X b g c).
Proof. exact @C62_fits_proof. Qed.
Print Assumptions C62_fits.
Example C62_example : draws_in_range (demo_ext 1 1) /\ exists b g',
  msd_bootstrap (demo_ext 1 1) (with_bootstrap (demo_boot 1 "xyz") true) [1;2]%R demo_disps [4;3]%R 0%nat = Ok (b, g')
  /\ b_n b = [2; 4]%R /\ length (b_n_bootstrap b) = 2%nat.
Proof. exact C62_example_proof. Qed.

(** ** C63

    [without_thinning a skip]: the parameters [a] with sub_sample_traj = 1 and step_skip = skip. The
    ASE parser does not count the skipped frames in its times (C21), so its step_skip stays. *)
Theorem C63_thinned_beforehand : forall geo circ frames frames' a, let k := a_sub_sample_traj a in
  0 < k -> sub_sample (Z.to_nat k) frames frames' ->
  ase_parser geo circ frames a = ase_parser geo circ frames' (without_thinning a (a_step_skip a))
  /\ pymatgen_parser geo circ frames a = pymatgen_parser geo circ frames' (without_thinning a (a_step_skip a * k))
  /\ mda_parser geo circ frames a = mda_parser geo circ frames' (without_thinning a (a_step_skip a * k)).
Proof. exact C63_proof. Qed.
Print Assumptions C63_thinned_beforehand.
Theorem C63_replicas : forall geo circ ts ts' a, let k := a_sub_sample_traj a in
  0 < k -> Forall2 (sub_sample (Z.to_nat k)) ts ts' -> let dtype := Some "identical"%string in
  from_frames (fun fs => ase_parser geo circ fs a) (TMulti ts) dtype
    = from_frames (fun fs => ase_parser geo circ fs (without_thinning a (a_step_skip a))) (TMulti ts') dtype
  /\ from_frames (fun fs => pymatgen_parser geo circ fs a) (TMulti ts) dtype
    = from_frames (fun fs => pymatgen_parser geo circ fs (without_thinning a (a_step_skip a * k))) (TMulti ts') dtype
  /\ from_universe (fun fs => mda_parser geo circ fs a) (TMulti ts) dtype
    = from_universe (fun fs => mda_parser geo circ fs (without_thinning a (a_step_skip a * k))) (TMulti ts') dtype.
Proof. exact C63_replicas_proof. Qed.
Print Assumptions C63_replicas.
(** Every second frame of five. *)
Example C63_example : sub_sample 2 (hop_frames 5) (frames_of ["Li"; "O"]%string 1%R 3 2 (fun f => hop (f * 2)) (fun _ => unit_cell)).
Proof. exact C63_example_proof. Qed.
