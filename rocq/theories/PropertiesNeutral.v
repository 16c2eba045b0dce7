(** * PropertiesNeutral: C102

    [watched_from natoms s pos pos']: the same motion, every atom being displaced in addition by [s f] in frame [f]. *)
From Verif Require Import Base Spec SpecParser SpecStats SpecFit SpecAnalyzer ModelParser ModelDiffusion ModelHdf ModelAnalyzer SpecRun SpecTrue SpecColl SpecNeutral
  ProofsTraj ProofsFit2 ProofsStats ProofsTrue ProofsColl ProofsNeutral.
From Coq Require Import Reals.
Open Scope Z_scope.

(** ** C102
    The same motion watched from two frames of reference, with any two frameworks: if the charges of the ions followed add up to
    zero, the charge displacements reported for an interval are equal, and so are their variances if the observations are counted
    alike. *)
Theorem C102_neutral_ions : forall G Seed RS (X : Ext R G Seed RS) i i' circ circ' cell cell' types types' vol vol' n natoms k x x' a a' p p' q u u' g an g1 h an' h1 s,
  faithful_read i circ cell types vol n natoms k x a p -> faithful_read i' circ' cell' types' vol' n natoms k x' a' p' ->
  watched_from natoms s (fun f b => cart cell (x f b)) (fun f b => cart cell' (x' f b)) -> p_indices p' = p_indices p ->
  (forall l, q = QArray l -> length l = length (p_indices p)) -> rsum (charges q (length (p_indices p))) = 0%R ->
  0 < u_sub_sample_dt u -> u_block u = false -> 0 < u_sub_sample_dt u' -> u_block u' = false ->
  conductivity_analyzer X (of_parsed p) q u g = Ok (an, g1) -> conductivity_analyzer X (of_parsed p') q u' h = Ok (an', h1) ->
  forall j j' t t', nth_error (b_dt (an_diff an)) j = Some t -> nth_error (b_dt (an_diff an')) j' = Some t' ->
  nth_error (p_intervals p) (j * Z.to_nat (u_sub_sample_dt u)) = nth_error (p_intervals p') (j' * Z.to_nat (u_sub_sample_dt u')) ->
  (exists v, nth_error (b_n (an_diff an)) j = Some v /\ nth_error (b_n (an_diff an')) j' = Some v)
  /\ (nth_error (p_n_o p) j = nth_error (p_n_o p') j' -> exists v, nth_error (b_v (an_diff an)) j = Some v /\ nth_error (b_v (an_diff an')) j' = Some v).
Proof. exact @C102_neutral_proof. Qed.
Print Assumptions C102_neutral_ions.
(** Charges that are a combination of two sets of charges: contributions of both, and of their correlation. *)
Theorem C102_combined_charges : forall G Seed RS (X : Ext R G Seed RS) u dts disps n_o natoms s t qa qb g b g' ga ba ga' gb bb gb' gs bs gs',
  0 < u_sub_sample_dt u -> u_block u = false -> Forall arr_wf disps -> Forall (fun d => length (a_rows d) = natoms) disps -> length qa = natoms -> length qb = natoms ->
  mscd_bootstrap X u dts disps (QArray (mixed_charges s t qa qb)) n_o g = Ok (b, g') ->
  mscd_bootstrap X u dts disps (QArray qa) n_o ga = Ok (ba, ga') -> mscd_bootstrap X u dts disps (QArray qb) n_o gb = Ok (bb, gb') ->
  mscd_bootstrap X u dts disps (QArray (mixed_charges 1 1 qa qb)) n_o gs = Ok (bs, gs') ->
  length (b_n ba) = length (b_n b) /\ length (b_n bb) = length (b_n b) /\ length (b_n bs) = length (b_n b)
  /\ forall j va vb vs, nth_error (b_n ba) j = Some va -> nth_error (b_n bb) j = Some vb -> nth_error (b_n bs) j = Some vs ->
       nth_error (b_n b) j = Some (s * s * va + t * t * vb + s * t * (vs - va - vb))%R.
Proof. exact @C102_mixed_proof. Qed.
Print Assumptions C102_combined_charges.
(** Ions of two kinds, of charges [zp] and [zm]. *)
Theorem C102_two_kinds : forall G Seed RS (X : Ext R G Seed RS) u dts disps n_o kinds zp zm g b g' ga ba ga' gb bb gb' gs bs gs',
  0 < u_sub_sample_dt u -> u_block u = false -> Forall arr_wf disps -> Forall (fun d => length (a_rows d) = length kinds) disps ->
  mscd_bootstrap X u dts disps (QArray (two_charges zp zm kinds)) n_o g = Ok (b, g') ->
  mscd_bootstrap X u dts disps (QArray (two_charges 1 0 kinds)) n_o ga = Ok (ba, ga') ->
  mscd_bootstrap X u dts disps (QArray (two_charges 0 1 kinds)) n_o gb = Ok (bb, gb') ->
  mscd_bootstrap X u dts disps (QScalar 1%R) n_o gs = Ok (bs, gs') ->
  length (b_n ba) = length (b_n b) /\ length (b_n bb) = length (b_n b) /\ length (b_n bs) = length (b_n b)
  /\ forall j va vb vs, nth_error (b_n ba) j = Some va -> nth_error (b_n bb) j = Some vb -> nth_error (b_n bs) j = Some vs ->
       nth_error (b_n b) j = Some (zp * zp * va + zm * zm * vb + zp * zm * (vs - va - vb))%R.
Proof. exact @C102_kinds_proof. Qed.
Print Assumptions C102_two_kinds.
(** Two ions going apart, relative to the oxygen and relative to the first ion, the second time with everything drifting: with
    charges 1 and -1 the results agree; with equal charges they do not. *)
Example C102_example : forall G Seed RS (X : Ext R G Seed RS) circ (g : G) q, (forall l, q = QArray l -> length l = 2%nat) -> exists p p' an an',
  faithful_read Ase circ unit_cell ["Li"; "Li"; "O"]%string 1%R 4 3 1 (drifting_pair steady leftwards resting) (framed [2]) p
  /\ faithful_read Ase circ unit_cell ["Li"; "Li"; "O"]%string 1%R 4 3 1 (drifting_pair steady leftwards steady) (framed [0]) p'
  /\ watched_from 3 (fun f => mkV 0%R (steady f - resting f)%R 0%R) (fun f b => cart unit_cell (drifting_pair steady leftwards resting f b))
       (fun f b => cart unit_cell (drifting_pair steady leftwards steady f b))
  /\ p_indices p = [0; 1] /\ p_indices p' = [0; 1] /\ p_drift_indices p = [2] /\ p_drift_indices p' = [0] /\ p_intervals p = p_intervals p'
  /\ conductivity_analyzer X (of_parsed p) q (demo_boot 1 "xyz") g = Ok (an, g) /\ conductivity_analyzer X (of_parsed p') q (demo_boot 1 "xyz") g = Ok (an', g)
  /\ nth_error (b_dt (an_diff an)) 0 = Some 1%R /\ nth_error (b_dt (an_diff an')) 0 = Some 1%R
  /\ (q = QArray [1; -1]%R -> nth_error (b_n (an_diff an)) 0 = Some (3 / 100)%R /\ nth_error (b_n (an_diff an')) 0 = Some (3 / 100)%R)
  /\ (q = QScalar 1%R -> nth_error (b_n (an_diff an)) 0 = Some 0%R /\ nth_error (b_n (an_diff an')) 0 = Some (3 / 100)%R).
Proof. exact @C102_example_proof. Qed.
(** Two ions of charges 2 and -1. *)
Example C102_kinds_example : forall G Seed RS (X : Ext R G Seed RS) (g : G), exists b ba bb bs, let run := fun q => mscd_bootstrap X (demo_boot 1 "xyz") [1;2]%R demo_disps q [4;3]%R g in
  run (QArray (two_charges 2 (-1) [true; false])) = Ok (b, g) /\ run (QArray (two_charges 1 0 [true; false])) = Ok (ba, g)
  /\ run (QArray (two_charges 0 1 [true; false])) = Ok (bb, g) /\ run (QScalar 1%R) = Ok (bs, g)
  /\ b_n b = [15 / 2]%R /\ b_n ba = [5 / 2]%R /\ b_n bb = [3 / 2]%R /\ b_n bs = [6]%R.
Proof. exact @C102_kinds_example_proof. Qed.
