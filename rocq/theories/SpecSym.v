(** * SpecSym: the same trajectory seen in another frame of reference or in other units *)
From Verif Require Import Base Spec SpecParser SpecStats ModelParser ModelDiffusion ModelHdf ModelAnalyzer SpecRun.
From Coq Require Import Reals.
Open Scope Z_scope.

(** The outcome [r] with the value, if any, replaced by its image. *)
Definition outcome {S T} (f : S -> T) (r : Res S) : Res T :=
  match r with Ok x => Ok (f x) | Raise e => Raise e end.

(** ** Linear maps of space

    The matrix [Q] stands for the map v |-> [cart Q v]: its rows are the images of the three axes.
    Rotations, reflections and changes of the length unit are of this kind. *)
Definition invertible (Q : M3 R) : Prop := cell_volume Q <> 0%R.
(** The image of a cell: every cell vector is mapped. *)
Definition turn_cell (Q cell : M3 R) : M3 R := mkM (cart Q (mr0 cell)) (cart Q (mr1 cell)) (cart Q (mr2 cell)).
Definition turn_volume (Q : M3 R) (v : R) : R := (Rabs (cell_volume Q) * v)%R.
(** The image of a frame. Fractional coordinates do not change; Cartesian ones are mapped. *)
Definition turn_frame (Q : M3 R) (f : Frame R) : Frame R :=
  mkFrame (f_types f) (f_pos f) (turn_cell Q (f_cell f)) (turn_volume Q (f_volume f)).
Definition turn_cartesian_frame (Q : M3 R) (f : Frame R) : Frame R :=
  mkFrame (f_types f) (map (cart Q) (f_pos f)) (turn_cell Q (f_cell f)) (turn_volume Q (f_volume f)).
Definition map_trajectory {S T} (f : S -> T) (t : trajectory (list S)) : trajectory (list T) :=
  match t with TSingle l => TSingle (map f l) | TMulti ls => TMulti (map (map f) ls) end.

(** The image of an array of displacements, of what a parser and an analyser hold. *)
Definition turn_arr (Q : M3 R) (d : Arr R) : Arr R := mkArr (a_obs d) (map (map (cart Q)) (a_rows d)).
Definition turn_parsed (Q : M3 R) (p : Parsed R) : Parsed R :=
  mkParsed (p_intervals p) (p_delta_t p) (map (turn_arr Q) (p_disp_3d p)) (p_n_o p) (turn_arr Q (p_dc p))
           (p_indices p) (p_drift_indices p) (p_min_dt p) (p_max_dt p) (option_map (turn_volume Q) (p_volume p)).
Definition turn_data (Q : M3 R) (d : AnalyzerData R) : AnalyzerData R :=
  mkAnalyzer (an_delta_t d) (map (turn_arr Q) (an_disp_3d d)) (an_n_o d) (option_map (turn_volume Q) (an_volume d)).

(** Squared lengths along [axes] become squared lengths along [axes']. With both all three axes: a
    rotation or reflection. With both x and y: for instance a rotation about z. *)
Definition carries (Q : M3 R) (axes axes' : list axis) : Prop :=
  length axes' = length axes /\ forall v, sqlen axes' (cart Q v) = sqlen axes v.
(** The bootstrap object over the images of the displacements, analysed along [dim]; [sl] is its
    internal form of [dim]. All statistics and fit results are the same. *)
Definition turn_boot (Q : M3 R) (dim : pystr) (sl : axis_slice) (b : Boot R) : Boot R :=
  mkBoot (map (turn_arr Q) (b_displacements b)) (b_delta_t b) (b_max_obs b) (b_distributions b) (b_dt b) (b_n b)
    (b_s b) (b_v b) (b_n_bootstrap b) (b_s_bootstrap b) (b_v_bootstrap b) (b_n_o b) (b_ngp b) (b_sub_sample_dt b)
    dim (b_euclidian b) (b_D b) (b_DJ b) (b_sigma b) (b_intercept b) (b_gradient b) (b_flatchain b)
    (b_covariance b) sl (b_start_dt b) (b_dims b) (b_model b) (b_cond_max b).
Definition turn_analyzer (Q : M3 R) (dim : pystr) (sl : axis_slice) (a : Analyzer R) : Analyzer R :=
  mkAn (turn_data Q (an_data a)) (turn_boot Q dim sl (an_diff a)).
Definition with_dim (u : BootParams R) (dim : pystr) : BootParams R :=
  mkBootParams (u_sub_sample_dt u) (u_bootstrap u) (u_block u) (u_n_resamples u) (u_max_resamples u) dim (u_alpha u).
(** First component of an outcome. *)
Definition on_first {S T U} (f : S -> T) (p : S * U) : T * U := (f (fst p), snd p).
(** ** Change of the length unit *)
Definition scaling (c : R) : M3 R := mkM (mkV c 0 0)%R (mkV 0 c 0)%R (mkV 0 0 c)%R.

(** What a change of the length unit does to the reported statistics: mean squared displacements
    are multiplied by c^2, their variances by c^4; times and sample counts stay. *)
Definition scaled_statistics (c : R) (b b' : Boot R) : Prop :=
  b_n b' = map (Rmult (c * c)) (b_n b) /\ b_v b' = map (Rmult (c * c * (c * c))) (b_v b)
  /\ b_dt b' = b_dt b /\ b_n_o b' = b_n_o b.
(** The result of a fit with the analyser replaced by its image. *)
Definition turn_run {G} (Q : M3 R) (dim : pystr) (sl : axis_slice) (r : Analyzer R * G * Res unit) : Analyzer R * G * Res unit :=
  (turn_analyzer Q dim sl (fst (fst r)), snd (fst r), snd r).

(** ** Change of the time unit *)
Definition retime_opts (c : R) (o : Options R) : Options R :=
  mkOptions (option_map (Rmult c) (o_min_dt o)) (option_map (Rmult c) (o_max_dt o)) (o_n_steps o) (o_spacing o)
            (o_sampling o) (o_memory_limit o) (o_itemsize o).
(** The same parameters with all times given in a unit [c] times smaller. *)
Definition retime (c : R) (a : ModelParser.Params R) : ModelParser.Params R :=
  mkParams (a_specie a) (PyFloat (c * pynum_val (a_time_step a))%R) (a_step_skip a) (a_sub_sample_atoms a) (a_sub_sample_traj a)
           (retime_opts c (a_opts a)) (a_specie_indices a) (a_masses a) (a_framework a).
Definition retime_parsed (c : R) (p : Parsed R) : Parsed R :=
  mkParsed (p_intervals p) (map (Rmult c) (p_delta_t p)) (p_disp_3d p) (p_n_o p) (p_dc p)
           (p_indices p) (p_drift_indices p) (c * p_min_dt p)%R (c * p_max_dt p)%R (p_volume p).
Definition retime_data (c : R) (d : AnalyzerData R) : AnalyzerData R :=
  mkAnalyzer (map (Rmult c) (an_delta_t d)) (an_disp_3d d) (an_n_o d) (an_volume d).
Definition retime_boot (c : R) (b : Boot R) : Boot R :=
  mkBoot (b_displacements b) (map (Rmult c) (b_delta_t b)) (b_max_obs b) (b_distributions b) (map (Rmult c) (b_dt b)) (b_n b)
    (b_s b) (b_v b) (b_n_bootstrap b) (b_s_bootstrap b) (b_v_bootstrap b) (b_n_o b) (b_ngp b) (b_sub_sample_dt b)
    (b_dimension b) (b_euclidian b) (b_D b) (b_DJ b) (b_sigma b) (b_intercept b) (b_gradient b) (b_flatchain b)
    (b_covariance b) (b_slice b) (b_start_dt b) (b_dims b) (b_model b) (b_cond_max b).
Definition retime_analyzer (c : R) (a : Analyzer R) : Analyzer R :=
  mkAn (retime_data c (an_data a)) (retime_boot c (an_diff a)).

(** ** The bootstrap option *)
Definition with_bootstrap (u : BootParams R) (f : bool) : BootParams R :=
  mkBootParams (u_sub_sample_dt u) f (u_block u) (u_n_resamples u) (u_max_resamples u) (u_dimension u) (u_alpha u).
(** The object without its bootstrap results. *)
Definition forget_boot (b : Boot R) : Boot R :=
  mkBoot (b_displacements b) (b_delta_t b) (b_max_obs b) [] (b_dt b) (b_n b)
    (b_s b) (b_v b) [] [] [] (b_n_o b) (b_ngp b) (b_sub_sample_dt b)
    (b_dimension b) (b_euclidian b) (b_D b) (b_DJ b) (b_sigma b) (b_intercept b) (b_gradient b) (b_flatchain b)
    (b_covariance b) (b_slice b) (b_start_dt b) (b_dims b) (b_model b) (b_cond_max b).
Definition forget_state {G} (r : Boot R * G * Res unit) : Boot R * G * Res unit := (forget_boot (fst (fst r)), snd (fst r), snd r).
(** The random indices are valid. *)
Definition draws_in_range {G Seed RS} (X : Ext R G Seed RS) : Prop :=
  forall g n size, (0 < n)%nat -> Forall (fun i => i < n)%nat (fst (x_randints X g n size)).

(** ** Thinning the trajectory beforehand *)
(** The same parameters for a trajectory that needs no thinning, recorded every [skip] steps. *)
Definition without_thinning (a : ModelParser.Params R) (skip : Z) : ModelParser.Params R :=
  mkParams (a_specie a) (a_time_step a) skip (a_sub_sample_atoms a) 1 (a_opts a) (a_specie_indices a) (a_masses a) (a_framework a).
