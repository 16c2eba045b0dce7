(** * SpecAnalyzer: vocabulary for several trajectories and for dictionaries *)
From Verif Require Import Base Spec ModelParser ModelDiffusion ModelAnalyzer.
From Coq Require Import Reals.

(** [d] has [m] atoms and [n] observations. *)
Definition arr_shape (d : Arr R) (m n : nat) : Prop := shape (a_rows d) m n /\ a_obs d = n.

(** [d] is the arrays [rs] one after the other along the atom axis. *)
Definition stacked (rs : list (Arr R)) (d : Arr R) : Prop :=
  a_rows d = List.concat (map a_rows rs) /\ Forall (fun r => a_obs r = a_obs d) rs.

(** The parsed trajectories have the same number of intervals and, at each interval, the same
    numbers of atoms and of observations. *)
Definition same_shape (ps : list (Parsed R)) : Prop :=
  exists shapes k, Forall (fun p =>
    Forall2 (fun d s => arr_shape d (fst s) (snd s)) (p_disp_3d p) shapes /\ length (p_n_o p) = k) ps.

(** Entry [i] of every list. *)
Definition column {P T} (f : P -> list T) (i : nat) (ps : list P) (c : list T) : Prop :=
  Forall2 (fun p x => nth_error (f p) i = Some x) ps c.

(** No reported displacement differs from zero. *)
Definition motionless (p : Parsed R) : Prop :=
  forall arr row v, In arr (p_disp_3d p) -> In row (a_rows arr) -> In v row -> v = zero3.

(** Several trajectories with the same number of frames and the same atoms in each frame. *)
Definition alike (t t' : list (Frame R)) : Prop := map f_types t' = map f_types t.

(** [d] is what 'identical' promises for the parsed replicas [ps]. *)
Record stacks (ps : list (Parsed R)) (d : AnalyzerData R) : Prop := {
  st_volume : hd_error (map p_volume ps) = Some (an_volume d);
  st_times : hd_error (map p_delta_t ps) = Some (an_delta_t d);
  st_length : Forall (fun p => length (an_disp_3d d) = length (p_disp_3d p)
                            /\ length (an_n_o d) = length (p_n_o p)) ps;
  st_arrays : forall i rs, column p_disp_3d i ps rs ->
                exists a, nth_error (an_disp_3d d) i = Some a /\ stacked rs a;
  st_counts : forall i cs, column p_n_o i ps cs -> nth_error (an_n_o d) i = Some (rsum cs) }.

(** All attributes but the displacements and their time intervals. *)
Definition with_data (b : Boot R) (displacements : list (Arr R)) (delta_t : list R) : Boot R :=
  mkBoot displacements delta_t (b_max_obs b) (b_distributions b) (b_dt b) (b_n b) (b_s b) (b_v b)
    (b_n_bootstrap b) (b_s_bootstrap b) (b_v_bootstrap b) (b_n_o b) (b_ngp b) (b_sub_sample_dt b)
    (b_dimension b) (b_euclidian b) (b_D b) (b_DJ b) (b_sigma b) (b_intercept b) (b_gradient b)
    (b_flatchain b) (b_covariance b) (b_slice b) (b_start_dt b) (b_dims b) (b_model b) (b_cond_max b).
