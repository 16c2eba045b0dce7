(** * C84: documented input is accepted and can be analysed *)
From Verif Require Import Base Spec SpecParser SpecStats SpecMol ModelParser ModelDiffusion ModelHdf ModelAnalyzer SpecRun SpecTrue SpecSym SpecLive ProofsTraj ProofsLive.
From Coq Require Import Reals.
Open Scope Z_scope.

(** ** C84 *)
(** The three parsers accept documented input; the only thing that can go wrong is the memory limit. *)
Theorem C84_parsers_accept : forall i frames types a, documented i frames types a ->
  (exists p, parser_by i geomspace_R circular_mean_R frames a = Ok p) \/ parser_by i geomspace_R circular_mean_R frames a = Raise MemoryError.
Proof. exact C84_parsers_proof. Qed.
Print Assumptions C84_parsers_accept.
(** ... which is not met when n_steps times the size of all displacements fits. *)
Theorem C84_within_memory : forall i frames types types' a, documented i frames types a -> types_read i types types' a -> 0 <= o_itemsize (a_opts a) ->
  (in_gigabytes (o_n_steps (a_opts a) * (Z.of_nat (followed types' a) * Z.of_nat (kept (length frames) (Z.to_nat (a_sub_sample_traj a))) * 3 * o_itemsize (a_opts a)))
    <= o_memory_limit (a_opts a))%R ->
  exists p, parser_by i geomspace_R circular_mean_R frames a = Ok p.
Proof. exact C84_memory_proof. Qed.
Print Assumptions C84_within_memory.
(** Exactly when there is something to analyse. *)
Theorem C84_observations : forall i frames types types' a p, documented i frames types a -> types_read i types types' a ->
  parser_by i geomspace_R circular_mean_R frames a = Ok p ->
  (p_disp_3d p <> [] <-> (2 <= followed types' a)%nat
    \/ (o_sampling (a_opts a) = "multi-origin"%string /\ exists m rest, p_intervals p = m :: rest
        /\ 2 * m <= Z.of_nat (kept (length frames) (Z.to_nat (a_sub_sample_traj a))))).
Proof. exact C84_observations_proof. Qed.
Print Assumptions C84_observations.
(** Then all three analysers can be built, for every dimension, stride and kind of error estimate. *)
Theorem C84_analysers_succeed : forall G Seed RS (X : Ext R G Seed RS), draws_in_range X -> forall i frames types types' a p u axes,
  documented i frames types a -> types_read i types types' a -> parser_by i geomspace_R circular_mean_R frames a = Ok p -> p_disp_3d p <> [] ->
  0 < u_sub_sample_dt u -> names (pystr_text (u_dimension u)) axes -> forall g : G,
  (exists r, diffusion_analyzer X (of_parsed p) u g = Ok r) /\ (exists r, jump_diffusion_analyzer X (of_parsed p) u g = Ok r)
  /\ forall q, (forall l, q = QArray l -> length l = followed types' a) -> exists r, conductivity_analyzer X (of_parsed p) q u g = Ok r.
Proof. exact @C84_analysers_proof. Qed.
Print Assumptions C84_analysers_succeed.
(** Otherwise none of them can, although the input was documented and the parser accepted it. *)
Theorem C84_nothing_to_analyse : forall G Seed RS (X : Ext R G Seed RS) d q u (g : G), an_disp_3d d = [] -> 0 < u_sub_sample_dt u ->
  diffusion_analyzer X d u g = Raise IndexError /\ jump_diffusion_analyzer X d u g = Raise IndexError /\ conductivity_analyzer X d q u g = Raise IndexError.
Proof. exact C84_nothing_proof. Qed.
Print Assumptions C84_nothing_to_analyse.
Theorem C84_one_atom_refuted : exists frames types a p, documented Ase frames types a /\ parser_by Ase geomspace_R circular_mean_R frames a = Ok p
  /\ forall G Seed RS (X : Ext R G Seed RS) q u (g : G), 0 < u_sub_sample_dt u ->
     diffusion_analyzer X (of_parsed p) u g = Raise IndexError /\ jump_diffusion_analyzer X (of_parsed p) u g = Raise IndexError
     /\ conductivity_analyzer X (of_parsed p) q u g = Raise IndexError.
Proof. exact C84_refuted_proof. Qed.
Print Assumptions C84_one_atom_refuted.
Example C84_example : forall G Seed RS (X : Ext R G Seed RS) g, draws_in_range X -> exists p,
  documented Pymatgen (hop_frames 4) ["Li"; "O"]%string (hop_params 1 (PyFloat 1%R) (mkOptions (Some 1%R) (Some 4%R) 2 "linear" "multi-origin" 8%R 8))
  /\ parser_by Pymatgen geomspace_R circular_mean_R (hop_frames 4) (hop_params 1 (PyFloat 1%R) (mkOptions (Some 1%R) (Some 4%R) 2 "linear" "multi-origin" 8%R 8)) = Ok p
  /\ exists r, diffusion_analyzer X (of_parsed p) (mkBootParams 1 true false 1000 1500 (PyStr "xyz") 0.001%R) g = Ok r.
Proof. exact C84_example_proof. Qed.
Example C84_example_molecules : selects ["H"; "O"; "H"; "O"; "Li"]%string
  (mkParams None (PyFloat 1%R) 1 1 1 (mkOptions None None 2 "linear" "multi-origin" 8%R 8) (SIMol [[1; 2]; [3; 4]]) (Some [1; 16]%R) (PyList [5])).
Proof. exact molecules_selected. Qed.
