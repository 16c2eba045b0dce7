(** * SpecInterfaces: one trajectory given through different interfaces; atoms nobody asked about *)
From Verif Require Import Base Spec SpecParser SpecStats ModelParser ModelDiffusion ModelAnalyzer SpecRun SpecSym.
From Coq Require Import Reals.
Open Scope Z_scope.

(** ** The same trajectory through different interfaces *)
(** pymatgen and ASE hand over fractional coordinates, MDAnalysis Cartesian ones. *)
Definition cartesian (f : Frame R) : Frame R := mkFrame (f_types f) (map (cart (f_cell f)) (f_pos f)) (f_cell f) (f_volume f).
Definition proper_cells (t : list (Frame R)) : Prop := Forall (fun f => cell_volume (f_cell f) <> 0%R) t.
(** The same parameters with another step_skip. *)
Definition with_step_skip (s : Z) (a : ModelParser.Params R) : ModelParser.Params R :=
  mkParams (a_specie a) (a_time_step a) s (a_sub_sample_atoms a) (a_sub_sample_traj a) (a_opts a)
           (a_specie_indices a) (a_masses a) (a_framework a).
(** Parsed objects that agree in everything an analysis is given, and in the atoms used. *)
Definition same_measurement (p p' : Parsed R) : Prop :=
  p_intervals p' = p_intervals p /\ p_delta_t p' = p_delta_t p /\ p_disp_3d p' = p_disp_3d p /\ p_n_o p' = p_n_o p
  /\ p_dc p' = p_dc p /\ p_indices p' = p_indices p /\ p_drift_indices p' = p_drift_indices p /\ p_volume p' = p_volume p.
(** Both fail with the same exception or both succeed with related values. *)
Definition both {S} (rel : S -> S -> Prop) (r r' : Res S) : Prop :=
  match r, r' with Ok x, Ok x' => rel x x' | Raise e, Raise e' => e = e' | _, _ => False end.

(** ** Atoms that were not asked for *)
(** The same frame except that atoms outside [l] may be elsewhere. *)
Definition same_at (l : list Z) (f f' : Frame R) : Prop :=
  f_types f' = f_types f /\ f_cell f' = f_cell f /\ f_volume f' = f_volume f /\ length (f_pos f') = length (f_pos f)
  /\ forall i, In i l -> py_index (f_pos f') i = py_index (f_pos f) i.
(** Parsed objects that agree in everything but the stored displacements of all atoms. *)
Definition same_but_dc (p p' : Parsed R) : Prop :=
  p_intervals p' = p_intervals p /\ p_delta_t p' = p_delta_t p /\ p_disp_3d p' = p_disp_3d p /\ p_n_o p' = p_n_o p
  /\ p_indices p' = p_indices p /\ p_drift_indices p' = p_drift_indices p
  /\ p_min_dt p' = p_min_dt p /\ p_max_dt p' = p_max_dt p /\ p_volume p' = p_volume p.

(** ** Several species at once *)
Definition with_specie (s : list string) (a : ModelParser.Params R) : ModelParser.Params R :=
  mkParams (Some s) (a_time_step a) (a_step_skip a) (a_sub_sample_atoms a) (a_sub_sample_traj a) (a_opts a)
           (a_specie_indices a) (a_masses a) (a_framework a).
(** [d] holds the series of [d1] and those of [d2], in some order. *)
Definition joins (d1 d2 d : Arr R) : Prop :=
  a_obs d1 = a_obs d /\ a_obs d2 = a_obs d /\ Permutation.Permutation (a_rows d) (a_rows d1 ++ a_rows d2)%list.
(** [p] is the parse of both selections together: same times; at every interval all series; sample counts add up. *)
Definition joint_parse (p1 p2 p : Parsed R) : Prop :=
  p_intervals p1 = p_intervals p /\ p_intervals p2 = p_intervals p /\ p_delta_t p1 = p_delta_t p /\ p_delta_t p2 = p_delta_t p
  /\ length (p_disp_3d p1) = length (p_disp_3d p) /\ length (p_disp_3d p2) = length (p_disp_3d p)
  /\ length (p_n_o p1) = length (p_n_o p) /\ length (p_n_o p2) = length (p_n_o p)
  /\ (forall i d1 d2 d, nth_error (p_disp_3d p1) i = Some d1 -> nth_error (p_disp_3d p2) i = Some d2 -> nth_error (p_disp_3d p) i = Some d -> joins d1 d2 d)
  /\ (forall i c1 c2 c, nth_error (p_n_o p1) i = Some c1 -> nth_error (p_n_o p2) i = Some c2 -> nth_error (p_n_o p) i = Some c -> c = (c1 + c2)%R).
(** No species in both lists. *)
Definition disjoint_names (s1 s2 : list string) : Prop := forall x, In x s1 -> ~ In x s2.
(** All atoms have the same displacements. *)
Definition move_alike (d : Arr R) : Prop := exists row, Forall (fun r => r = row) (a_rows d).
