(** * SpecOrder: the same atoms listed in another order; a motion common to all atoms *)
From Verif Require Import Base Spec SpecParser SpecStats ModelParser ModelDiffusion ModelAnalyzer SpecRun.
From Coq Require Import Reals Permutation.
Open Scope Z_scope.

(** ** Other orders of the atoms *)
(** A renumbering of the atoms 0..n-1: the new atom [a] is the old atom [s a]. *)
Definition renumbering (n : nat) (s : nat -> nat) : Prop :=
  (forall a, (a < n)%nat -> (s a < n)%nat) /\ (forall a b, (a < n)%nat -> (b < n)%nat -> s a = s b -> a = b).
Definition renumbered_types (s : nat -> nat) (types types' : list string) : Prop :=
  length types' = length types /\ forall a, (a < length types)%nat -> nth_error types' a = nth_error types (s a).

(** Two arrays of displacements hold the same series, one per atom, in some order. *)
Definition same_rows (d d' : Arr R) : Prop := a_obs d' = a_obs d /\ Permutation (a_rows d) (a_rows d').
(** What a parser reports, up to the order of the atoms. *)
Definition same_parse (p p' : Parsed R) : Prop :=
  Forall2 same_rows (p_disp_3d p) (p_disp_3d p')
  /\ p_intervals p' = p_intervals p /\ p_delta_t p' = p_delta_t p /\ p_n_o p' = p_n_o p
  /\ p_min_dt p' = p_min_dt p /\ p_max_dt p' = p_max_dt p /\ p_volume p' = p_volume p.
(** What an analyser is given, up to the order of the atoms. *)
Definition same_data (d d' : AnalyzerData R) : Prop :=
  Forall2 same_rows (an_disp_3d d) (an_disp_3d d')
  /\ an_delta_t d' = an_delta_t d /\ an_n_o d' = an_n_o d /\ an_volume d' = an_volume d.
(** Charges given atom by atom: every atom keeps its own. *)
Definition same_charges (q q' : charge R) (d d' : Arr R) : Prop :=
  match q, q' with
  | QScalar c, QScalar c' => c' = c
  | QArray l, QArray l' => length l = length (a_rows d) /\ length l' = length (a_rows d')
                           /\ Permutation (combine l (a_rows d)) (combine l' (a_rows d'))
  | _, _ => False
  end.
(** The object [b] with other displacement arrays and other lists of distances, all else kept. *)
Definition with_atoms (b : Boot R) (ds : list (Arr R)) (es : list (list R)) : Boot R :=
  mkBoot ds (b_delta_t b) (b_max_obs b) (b_distributions b) (b_dt b) (b_n b)
    (b_s b) (b_v b) (b_n_bootstrap b) (b_s_bootstrap b) (b_v_bootstrap b) (b_n_o b) (b_ngp b) (b_sub_sample_dt b)
    (b_dimension b) es (b_D b) (b_DJ b) (b_sigma b) (b_intercept b) (b_gradient b) (b_flatchain b)
    (b_covariance b) (b_slice b) (b_start_dt b) (b_dims b) (b_model b) (b_cond_max b).
(** All statistics and fit results are the same; displacements and distances up to the order of
    the atoms. *)
Definition same_boot (b b' : Boot R) : Prop :=
  exists ds es, Forall2 same_rows (b_displacements b) ds /\ Forall2 (@Permutation R) (b_euclidian b) es
    /\ b' = with_atoms b ds es.
Definition same_analyzer (a a' : Analyzer R) : Prop := same_data (an_data a) (an_data a') /\ same_boot (an_diff a) (an_diff a').
(** The result of a fit: same state of the generator, same exception if any, same results. *)
Definition same_run {G} (r r' : Boot R * G * Res unit) : Prop :=
  same_boot (fst (fst r)) (fst (fst r')) /\ snd (fst r') = snd (fst r) /\ snd r' = snd r.
(** All arrays have one row per atom for the same number of atoms. *)
Definition one_number_of_atoms (ds : list (Arr R)) : Prop := exists m, Forall (fun d => length (a_rows d) = m) ds.
(** The same parameters with the atoms listed as [l]. *)
Definition with_indices (a : ModelParser.Params R) (l : list Z) : ModelParser.Params R :=
  mkParams (a_specie a) (a_time_step a) (a_step_skip a) (a_sub_sample_atoms a) (a_sub_sample_traj a) (a_opts a)
           (SIFlat l) (a_masses a) (a_framework a).

(** ** The triclinic warning *)
(** All entries off the diagonal of the matrix of cell vectors are zero. *)
Definition orthorhombic (cell : M3 R) : Prop :=
  (vy (mr0 cell) = 0 /\ vz (mr0 cell) = 0 /\ vx (mr1 cell) = 0 /\ vz (mr1 cell) = 0 /\ vx (mr2 cell) = 0 /\ vy (mr2 cell) = 0)%R.
