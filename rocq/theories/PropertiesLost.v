(** * PropertiesLost: C105

    All arithmetic is IEEE double precision. [no_number] are NaN and the infinities, [part v ax] is one coordinate of a position,
    [site n c] the place of the (possibly negative) index [c] among [n] atoms. *)
From Verif Require Import Base SpecParser SpecStats SpecTrue SpecLost ModelParser ModelDiffusion ModelHdf ModelAnalyzer SpecDouble SpecRound SpecChain SpecUnwrap Spec
  ProofsTraj ProofsDisp ProofsUnwrap ProofsChain ProofsLost ProofsIgnored.
From Coq.Floats Require Import SpecFloat.
Open Scope Z_scope.

(** One NaN or infinite coordinate, in one frame that is read, of one followed or framework atom: no entry of the reported
    MSD, MSTD or MSCD is a number. *)
Theorem C105_no_number : forall {G Seed RS} (X : Ext spec_float G Seed RS) i gs circ frames (a : Params spec_float) p j fr c v ax q u g an g',
  parser_in_doubles i gs circ frames a = Ok p -> 0 < a_sub_sample_traj a -> a_sub_sample_atoms a = 1 ->
  atomic_selection a -> o_sampling (a_opts a) = "multi-origin"%string -> Forall (fun m => 0 < m) (p_intervals p) ->
  nth_error frames (j * Z.to_nat (a_sub_sample_traj a)) = Some fr -> nth_error (f_pos fr) (site (length (f_pos fr)) c) = Some v ->
  In c (p_indices p ++ p_drift_indices p)%list -> no_number (part v ax) ->
  0 < u_sub_sample_dt u -> u_block u = false -> (forall l, q = QArray l -> length l = length (p_indices p)) ->
  diffusion_analyzer X (of_parsed p) u g = Ok (an, g') \/ jump_diffusion_analyzer X (of_parsed p) u g = Ok (an, g') \/ conductivity_analyzer X (of_parsed p) q u g = Ok (an, g') ->
  Forall no_number (b_n (an_diff an)).
Proof. exact (fun G Seed RS => @C105_proof no_number no_number_absorbing G Seed RS). Qed.
Print Assumptions C105_no_number.
(** A NaN coordinate makes all of them NaN. *)
Theorem C105_nan : forall {G Seed RS} (X : Ext spec_float G Seed RS) i gs circ frames (a : Params spec_float) p j fr c v ax q u g an g',
  parser_in_doubles i gs circ frames a = Ok p -> 0 < a_sub_sample_traj a -> a_sub_sample_atoms a = 1 ->
  atomic_selection a -> o_sampling (a_opts a) = "multi-origin"%string -> Forall (fun m => 0 < m) (p_intervals p) ->
  nth_error frames (j * Z.to_nat (a_sub_sample_traj a)) = Some fr -> nth_error (f_pos fr) (site (length (f_pos fr)) c) = Some v ->
  In c (p_indices p ++ p_drift_indices p)%list -> part v ax = S754_nan ->
  0 < u_sub_sample_dt u -> u_block u = false -> (forall l, q = QArray l -> length l = length (p_indices p)) ->
  diffusion_analyzer X (of_parsed p) u g = Ok (an, g') \/ jump_diffusion_analyzer X (of_parsed p) u g = Ok (an, g') \/ conductivity_analyzer X (of_parsed p) q u g = Ok (an, g') ->
  Forall (fun x => x = S754_nan) (b_n (an_diff an)).
Proof. exact (fun G Seed RS => @C105_proof (fun x => x = S754_nan) nan_absorbing G Seed RS). Qed.
Print Assumptions C105_nan.
(** So one reported number certifies every coordinate that was used. *)
Theorem C105_reported_number : forall {G Seed RS} (X : Ext spec_float G Seed RS) i gs circ frames (a : Params spec_float) p q u g an g',
  parser_in_doubles i gs circ frames a = Ok p -> 0 < a_sub_sample_traj a -> a_sub_sample_atoms a = 1 ->
  atomic_selection a -> o_sampling (a_opts a) = "multi-origin"%string -> Forall (fun m => 0 < m) (p_intervals p) ->
  0 < u_sub_sample_dt u -> u_block u = false -> (forall l, q = QArray l -> length l = length (p_indices p)) ->
  diffusion_analyzer X (of_parsed p) u g = Ok (an, g') \/ jump_diffusion_analyzer X (of_parsed p) u g = Ok (an, g') \/ conductivity_analyzer X (of_parsed p) q u g = Ok (an, g') ->
  Exists (fun x => ~ no_number x) (b_n (an_diff an)) ->
  forall j fr c v ax, nth_error frames (j * Z.to_nat (a_sub_sample_traj a)) = Some fr -> In c (p_indices p ++ p_drift_indices p)%list ->
    nth_error (f_pos fr) (site (length (f_pos fr)) c) = Some v -> ~ no_number (part v ax).
Proof. exact (fun G Seed RS => @C105_number_proof G Seed RS). Qed.
Print Assumptions C105_reported_number.
(** The coordinates of the other atoms, numbers or not, change nothing at all. *)
Theorem C105_unused : forall {G Seed RS} (X : Ext spec_float G Seed RS) i gs circ frames frames' (a : Params spec_float) p,
  parser_in_doubles i gs circ frames a = Ok p -> a_sub_sample_atoms a = 1 -> atomic_selection a ->
  Forall2 (agree_at (p_indices p ++ p_drift_indices p)%list) frames frames' ->
  exists p', parser_in_doubles i gs circ frames' a = Ok p' /\ same_measured p p'
    /\ (forall u g, diffusion_analyzer X (of_parsed p') u g = diffusion_analyzer X (of_parsed p) u g)
    /\ (forall u g, jump_diffusion_analyzer X (of_parsed p') u g = jump_diffusion_analyzer X (of_parsed p) u g)
    /\ forall q u g, conductivity_analyzer X (of_parsed p') q u g = conductivity_analyzer X (of_parsed p) q u g.
Proof. exact (fun G Seed RS => @C105_unused_proof G Seed RS). Qed.
Print Assumptions C105_unused.
Example C105_example : forall {G Seed RS} (X : Ext spec_float G Seed RS) circ g,
  (exists p an, parser_in_doubles Ase no_space circ (stray S754_nan (S754_zero false) (S754_zero false)) stray_params = Ok p
     /\ p_indices p = [0] /\ p_drift_indices p = [1] /\ p_intervals p = [1; 2; 3]
     /\ diffusion_analyzer X (of_parsed p) stray_boot g = Ok (an, g) /\ b_n (an_diff an) = [S754_nan])
  /\ (exists p an, parser_in_doubles Ase no_space circ (stray (eighths 1) (S754_infinity false) (S754_zero false)) stray_params = Ok p
     /\ diffusion_analyzer X (of_parsed p) stray_boot g = Ok (an, g) /\ b_n (an_diff an) = [S754_nan])
  /\ (exists p an, parser_in_doubles Ase no_space circ (stray (eighths 1) (S754_zero false) S754_nan) stray_params = Ok p
     /\ diffusion_analyzer X (of_parsed p) stray_boot g = Ok (an, g) /\ b_n (an_diff an) = [S754_finite false 4691249611844267 (-50)]).
Proof. exact (fun G Seed RS => @C105_example_proof G Seed RS). Qed.
