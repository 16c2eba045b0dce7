(** * PropertiesAnalyzer: C16 (dtype), C23, C24, C41, C53

    [parsers] are the ASE, pymatgen and MDAnalysis parsers. [X] collects the external routines;
    nothing is assumed about them here. *)
From Verif Require Import Base Spec SpecParser SpecStats SpecFit SpecAnalyzer ModelParser ModelDiffusion ModelHdf ModelAnalyzer
  ProofsTraj ProofsStats ProofsFit ProofsFit2 ProofsAnalyzer SpecRun.
From Coq Require Import Reals Lra.
Open Scope Z_scope.

(** ** C16: dtype *)
Theorem C16_unknown_dtype : forall (A : Type) (NA : Num A) (Fr U : Type) (parse : list Fr -> Res (Parsed A))
    (parse' : U -> Res (Parsed A)) t t' s,
  (s <> "identical" -> s <> "consecutive" -> from_frames parse t (Some s) = Raise ValueError)%string
  /\ (s <> "identical" -> from_universe parse' t' (Some s) = Raise ValueError)%string.
Proof. exact @C16_dtype_proof. Qed.
Print Assumptions C16_unknown_dtype.
(** The documented values are accepted ('identical': [C23_replicas_stacked]). *)
Theorem C16_known_dtype : forall (A : Type) (NA : Num A) (Fr : Type) (parse : list Fr -> Res (Parsed A)) t p,
  parse t = Ok p -> (exists d, from_frames parse (TSingle t) None = Ok d)
  /\ (exists d, from_frames parse (TMulti [t]) (Some "consecutive"%string) = Ok d).
Proof. exact @C16_dtype_accepted_proof. Qed.
Print Assumptions C16_known_dtype.
Example C16_dtype_example : forall (parse : list nat -> Res (Parsed R)),
  from_frames parse (TSingle [1%nat]) (Some "Identical"%string) = Raise ValueError.
Proof. reflexivity. Qed.

(** ** C23 *)

(** Replicas with the same number of frames and the same atoms: the arrays one after the other along
    the atom axis, the summed n_o, the times of every replica. *)
Theorem C23_replicas_stacked : forall (parse : parser_of) geo circ (a : Params R) t0 ts ps, In parse parsers ->
  ts <> [] -> Forall (alike t0) ts -> Forall2 (fun t p => parse geo circ t a = Ok p) ts ps ->
  exists d, from_frames (fun t => parse geo circ t a) (TMulti ts) (Some "identical"%string) = Ok d
    /\ from_universe (fun t => parse geo circ t a) (TMulti ts) (Some "identical"%string) = Ok d
    /\ stacks ps d /\ Forall (fun p => p_delta_t p = an_delta_t d) ps.
Proof. exact C23_proof. Qed.
Print Assumptions C23_replicas_stacked.
(** The MSD is the average of the MSDs the replicas give on their own. *)
Theorem C23_msd_is_average : forall G Seed RS (X : Ext R G Seed RS) (parse : parser_of) geo circ (a : Params R) t0 ts ps d u g an g' i ms,
  In parse parsers -> ts <> [] -> Forall (alike t0) ts -> Forall2 (fun t p => parse geo circ t a = Ok p) ts ps ->
  0 < u_sub_sample_dt u -> u_block u = false ->
  from_frames (fun t => parse geo circ t a) (TMulti ts) (Some "identical"%string) = Ok d ->
  diffusion_analyzer X d u g = Ok (an, g') ->
  Forall2 (fun t m => exists dr ar gr gr', from_frames (fun t => parse geo circ t a) (TSingle t) None = Ok dr
                      /\ diffusion_analyzer X dr u gr = Ok (ar, gr') /\ nth_error (b_n (an_diff ar)) i = Some m) ts ms ->
  nth_error (b_n (an_diff an)) i = Some (average ms).
Proof. exact @C23_average_proof. Qed.
Print Assumptions C23_msd_is_average.
Example C23_example : forall circ,
  let parse := fun t => ase_parser geomspace_R circ t (hop_params 1 (PyFloat 1%R) one_step) in
  exists d a, from_frames parse (TMulti [hop_frames 3; hop_frames 3]) (Some "identical"%string) = Ok d
    /\ nth_error (an_disp_3d d) 0 = Some a /\ length (a_rows a) = 2%nat.
Proof. exact C23_example_proof. Qed.

(** Replicas of different sizes: after a first replica with two atoms, a replica with one atom is
    accepted and its atom counted twice (four rows instead of three). *)
Theorem C23_sizes_refuted : forall circ,
  let parse := fun t => ase_parser geomspace_R circ t (hop_params 1 (PyFloat 1%R) one_step) in
  exists p1 p2 d a1 a2 a,
  parse (hop3_frames 3) = Ok p1 /\ parse (hop_frames 3) = Ok p2
  /\ from_frames parse (TMulti [hop3_frames 3; hop_frames 3]) (Some "identical"%string) = Ok d
  /\ p_disp_3d p1 = [a1] /\ p_disp_3d p2 = [a2] /\ an_disp_3d d = [a]
  /\ length (a_rows a1) = 2%nat /\ length (a_rows a2) = 1%nat /\ length (a_rows a) = 4%nat.
Proof. exact C23_refuted_proof. Qed.
Print Assumptions C23_sizes_refuted.
(** A second replica with another number of atoms, not one, is rejected. *)
Theorem C23_other_sizes_rejected : forall T (parse : T -> Res (Parsed R)) t1 t2 ts p1 p2 d1 d2,
  parse t1 = Ok p1 -> parse t2 = Ok p2 -> nth_error (p_disp_3d p1) 0 = Some d1 -> nth_error (p_disp_3d p2) 0 = Some d2 ->
  length (a_rows d2) <> length (a_rows d1) -> length (a_rows d2) <> 1%nat ->
  forall d, identical parse (t1 :: t2 :: ts) <> Ok d.
Proof. exact @C23_rejected_proof. Qed.
Print Assumptions C23_other_sizes_rejected.

(** ** C24 *)
Theorem C24_pieces_equal_whole : forall (A : Type) (NA : Num A) (Fr : Type) (parse : list Fr -> Res (Parsed A)) pieces,
  from_frames parse (TMulti pieces) (Some "consecutive"%string) = from_frames parse (TSingle (List.concat pieces)) None.
Proof. exact @C24_proof. Qed.
Print Assumptions C24_pieces_equal_whole.
(** MDAnalysis universes cannot be joined: refused, not misread. *)
Theorem C24_universe_refused : forall (A : Type) (NA : Num A) (U : Type) (parse : U -> Res (Parsed A)) t,
  from_universe parse t (Some "consecutive"%string) = Raise ValueError.
Proof. exact @C24_universe_proof. Qed.
Print Assumptions C24_universe_refused.
Example C24_example : forall circ,
  let parse := fun t => ase_parser geomspace_R circ t (hop_params 1 (PyFloat 1%R) one_step) in
  exists d, from_frames parse (TMulti [firstn 1 (hop_frames 3); skipn 1 (hop_frames 3)]) (Some "consecutive"%string) = Ok d
    /\ length (an_disp_3d d) = 1%nat.
Proof. exact C24_example_proof. Qed.

(** ** C41

    [reachable X u b]: [b] was made by one of the three constructors with options [u] and then used
    in any sequence of successful and failed calls. uravu's own dictionaries are assumed to
    round-trip. *)
Theorem C41_round_trip : forall G Seed RS (X : Ext R G Seed RS) to_d of_d, (forall l, of_d (to_d l) = Ok l) ->
  forall u b, u_sub_sample_dt u = 1 -> reachable X u b -> boot_from_dict of_d (boot_to_dict to_d b) = Ok b.
Proof. exact @C41_bootstrap_proof. Qed.
Print Assumptions C41_round_trip.
Theorem C41_analyzer_round_trip : forall G Seed RS (X : Ext R G Seed RS) to_d of_d, (forall l, of_d (to_d l) = Ok l) ->
  forall u a, u_sub_sample_dt u = 1 -> reachable X u (an_diff a) ->
  analyzer_from_dict of_d (analyzer_to_dict to_d a) = Ok a.
Proof. exact @C41_analyser_proof. Qed.
Print Assumptions C41_analyzer_round_trip.
(** For any sub_sample_dt everything but the displacements and their times comes back, these are
    thinned out once more, and every later call gives the same outcome as on the original. *)
Theorem C41_any_sub_sample : forall G Seed RS (X : Ext R G Seed RS) to_d of_d, (forall l, of_d (to_d l) = Ok l) ->
  forall u b, 0 < u_sub_sample_dt u -> reachable X u b -> exists ds ts,
    boot_from_dict of_d (boot_to_dict to_d b) = Ok (with_data b ds ts)
    /\ sub_sample (Z.to_nat (u_sub_sample_dt u)) (b_displacements b) ds
    /\ sub_sample (Z.to_nat (u_sub_sample_dt u)) (b_delta_t b) ts
    /\ forall c g b' g' o, run_call X b g c = (b', g', o) -> run_call X (with_data b ds ts) g c = (with_data b' ds ts, g', o).
Proof. exact @C41_any_stride_proof. Qed.
Print Assumptions C41_any_sub_sample.
(** ... so the round trip is not the identity for sub_sample_dt = 2. *)
Theorem C41_sub_sample_refuted : forall (G Seed RS : Type) (X : Ext R G Seed RS) (g : G) to_d of_d, (forall l, of_d (to_d l) = Ok l) ->
  exists b, reachable X (demo_boot 2 "xyz") b
    /\ exists b', boot_from_dict of_d (boot_to_dict to_d b) = Ok b' /\ boot_to_dict to_d b' <> boot_to_dict to_d b
         /\ b_delta_t b = [1;3]%R /\ b_delta_t b' = [1]%R.
Proof. exact C41_refuted_proof. Qed.
Print Assumptions C41_sub_sample_refuted.
Example C41_example : forall G Seed RS (X : Ext R G Seed RS) (g : G),
  exists (to_d : list R -> list (string * pyval (nd R) R)) of_d b,
    (forall l, of_d (to_d l) = Ok l) /\ reachable X (demo_boot 1 "xyz") b /\ b_n b <> [].
Proof. exact @C41_example_proof. Qed.

(** ** C53

    Fixed cell; every atom shares the motion [u], up to images [img]; no limit on the step length. *)
Theorem C53_no_displacement : forall circ cell types vol n natoms k (x0 u : nat -> V3 R) (img : nat -> nat -> V3 Z) (a : Params R) p,
  cell_volume cell <> 0%R -> (0 < k)%nat -> a_sub_sample_traj a = Z.of_nat k -> atomic_selection a ->
  let frames := frames_of types vol n natoms (fun f i => plus3 (plus3 (x0 i) (u f)) (ivec (img f i))) (fun _ => cell) in
  ase_parser geomspace_R circ frames a = Ok p \/ pymatgen_parser geomspace_R circ frames a = Ok p ->
  p_drift_indices p <> [] -> motionless p.
Proof. exact C53_ase_proof. Qed.
Print Assumptions C53_no_displacement.
Theorem C53_no_displacement_mda : forall circ cell types vol n natoms ka k (x0 u : nat -> V3 R) (img : nat -> nat -> V3 Z) (a : Params R) p,
  cell_volume cell <> 0%R -> (0 < ka)%nat -> (0 < k)%nat -> length types = natoms ->
  a_sub_sample_traj a = Z.of_nat k -> a_sub_sample_atoms a = Z.of_nat ka -> atomic_selection a ->
  mda_parser geomspace_R circ (frames_of types vol n natoms
    (fun f i => cart cell (plus3 (plus3 (x0 i) (u f)) (ivec (img f i)))) (fun _ => cell)) a = Ok p ->
  p_drift_indices p <> [] -> motionless p.
Proof. exact C53_mda_proof. Qed.
Print Assumptions C53_no_displacement_mda.
Theorem C53_statistics_zero : forall G Seed RS (X : Ext R G Seed RS) (parse : parser_of) circ (a : Params R) t p u q g an g',
  In parse parsers -> parse geomspace_R circ t a = Ok p -> motionless p ->
  (forall l, q = QArray l -> length l = length (p_indices p)) -> 0 < u_sub_sample_dt u -> u_block u = false ->
  analysed_by X (of_parsed p) q u g an g' -> Forall (fun m => m = 0%R) (b_n (an_diff an)).
Proof. exact @C53_end_proof. Qed.
Print Assumptions C53_statistics_zero.
Example C53_example : forall G Seed RS (X : Ext R G Seed RS) circ g, exists p an,
  ase_parser geomspace_R circ (drift_frames 3) (hop_params 1 (PyFloat 1%R) one_step) = Ok p /\ p_drift_indices p <> []
  /\ analysed_by X (of_parsed p) (QScalar 1%R) (demo_boot 1 "xyz") g an g /\ b_n (an_diff an) = [0%R].
Proof. exact @C53_example_proof. Qed.
