(** * PropertiesReplica: C68 the order of the replicas *)
From Verif Require Import Base Spec SpecParser SpecStats SpecFit SpecAnalyzer ModelParser ModelDiffusion ModelHdf ModelAnalyzer
  ProofsTraj ProofsAnalyzer SpecRun SpecSym SpecOrder ProofsReplica.
From Coq Require Import Reals Permutation.
Open Scope Z_scope.

(** ** C68

    Replicas ('identical') given in another order: the analyser receives the same lag times and
    counts, and at every lag the same displacement series, in some order. Neither order fails when
    the other succeeds. *)
Theorem C68_replica_order_partial : forall (parse : parser_of) geo circ (a : ModelParser.Params R) t0 ts ts' d, In parse parsers ->
  Forall (alike t0) ts -> Permutation ts ts' ->
  from_frames (fun t => parse geo circ t a) (TMulti ts) (Some "identical"%string) = Ok d ->
  exists d', from_frames (fun t => parse geo circ t a) (TMulti ts') (Some "identical"%string) = Ok d'
    /\ from_universe (fun t => parse geo circ t a) (TMulti ts') (Some "identical"%string) = Ok d'
    /\ Forall2 same_rows (an_disp_3d d) (an_disp_3d d') /\ an_delta_t d' = an_delta_t d /\ an_n_o d' = an_n_o d.
Proof. exact C68_order_proof. Qed.
Print Assumptions C68_replica_order_partial.
(** When all replicas have the same volume, everything agrees: with [C65_diffusion],
    [C65_jump_diffusion] and [C65_conductivity] all reported statistics are equal. *)
Theorem C68_same_volume : forall (parse : parser_of) geo circ (a : ModelParser.Params R) t0 ts ts' d d', In parse parsers ->
  Forall (alike t0) ts -> Permutation ts ts' -> 0 < a_sub_sample_traj a ->
  (forall t t', In t ts -> In t' ts -> option_map f_volume (hd_error t) = option_map f_volume (hd_error t')) ->
  from_frames (fun t => parse geo circ t a) (TMulti ts) (Some "identical"%string) = Ok d ->
  from_frames (fun t => parse geo circ t a) (TMulti ts') (Some "identical"%string) = Ok d' -> same_data d d'.
Proof. exact C68_volume_proof. Qed.
Print Assumptions C68_same_volume.
Example C68_example : forall circ, let parse := fun t => ase_parser geomspace_R circ t (hop_params 1 (PyFloat 1%R) one_step) in
  exists d d', Forall (alike (hop_frames 3)) [hop_frames 3; drift_frames 3]
    /\ from_frames parse (TMulti [hop_frames 3; drift_frames 3]) (Some "identical"%string) = Ok d
    /\ from_frames parse (TMulti [drift_frames 3; hop_frames 3]) (Some "identical"%string) = Ok d' /\ same_data d d'.
Proof. exact C68_example_proof. Qed.
(** The volume is that of the first frame of the first replica ... *)
Theorem C68_volume_is_first : forall (parse : parser_of) geo circ (a : ModelParser.Params R) t ts d, In parse parsers -> 0 < a_sub_sample_traj a ->
  from_frames (fun t => parse geo circ t a) (TMulti (t :: ts)) (Some "identical"%string) = Ok d ->
  an_volume d = option_map f_volume (hd_error t).
Proof. exact C68_first_volume_proof. Qed.
Print Assumptions C68_volume_is_first.
(** ... and so depends on the order when the volumes differ. *)
Theorem C68_volume_refuted : forall circ, let parse := fun t => ase_parser geomspace_R circ t (hop_params 1 (PyFloat 1%R) one_step) in
  exists t t' d d', Forall (alike t) [t; t'] /\ Permutation [t; t'] [t'; t]
    /\ from_frames parse (TMulti [t; t']) (Some "identical"%string) = Ok d
    /\ from_frames parse (TMulti [t'; t]) (Some "identical"%string) = Ok d'
    /\ an_volume d = Some 1%R /\ an_volume d' = Some 8%R.
Proof. exact C68_refuted_proof. Qed.
Print Assumptions C68_volume_refuted.
(** A list of one replica is the same as the trajectory alone, exceptions included. *)
Theorem C68_single_replica : forall (parse : parser_of) geo circ (a : ModelParser.Params R) t, In parse parsers ->
  from_frames (fun t => parse geo circ t a) (TMulti [t]) (Some "identical"%string) = from_frames (fun t => parse geo circ t a) (TSingle t) None.
Proof. exact C68_single_proof. Qed.
Print Assumptions C68_single_replica.
