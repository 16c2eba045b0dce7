(** * SpecPool: vocabulary for the collective motion of several replicas (C76) *)
From Verif Require Import Base Spec SpecStats ModelParser ModelDiffusion ModelHdf ModelAnalyzer.
From Coq Require Import Reals.
Open Scope R_scope.

(** The collective displacement (sum over atoms) of observation [t]. *)
Definition total (d : Arr R) (t : nat) : V3 R := sum3 (at_time d t).
(** Scalar product along the chosen axes. *)
Definition inner (axes : list axis) (v w : V3 R) : R := rsum (map (fun a => coord v a * coord w a) axes).
(** Average over the observations of the product of the collective displacements of two replicas. *)
Definition covariation (axes : list axis) (d d' : Arr R) : R :=
  average (tab (a_obs d) (fun t => inner axes (total d t) (total d' t))).
(** The collective displacements of different replicas are uncorrelated. *)
Definition uncorrelated (axes : list axis) (rs : list (Arr R)) : Prop :=
  forall i j r r', i <> j -> nth_error rs i = Some r -> nth_error rs j = Some r' -> covariation axes r r' = 0.

(** [m] is the mean squared total (charge) displacement reported at position [i] when the trajectory
    [t] is analysed on its own. *)
Definition mstd_reported {G Seed RS} (X : Ext R G Seed RS) (parse : list (Frame R) -> Res (Parsed R)) (u : BootParams R) (i : nat)
    (t : list (Frame R)) (m : R) : Prop :=
  exists d an g g', from_frames parse (TSingle t) None = Ok d
    /\ jump_diffusion_analyzer X d u g = Ok (an, g') /\ nth_error (b_n (an_diff an)) i = Some m.
Definition mscd_reported {G Seed RS} (X : Ext R G Seed RS) (parse : list (Frame R) -> Res (Parsed R)) (q : charge R) (u : BootParams R) (i : nat)
    (t : list (Frame R)) (m : R) : Prop :=
  exists d an g g', from_frames parse (TSingle t) None = Ok d
    /\ conductivity_analyzer X d q u g = Ok (an, g') /\ nth_error (b_n (an_diff an)) i = Some m.

(** [k] copies of the atoms of [d]. *)
Definition copies (k : nat) (d : Arr R) : Arr R := mkArr (a_obs d) (List.concat (repeat (a_rows d) k)).
(** The collective statistics of [k] copies: means times k^2, variances times k^4, counts and atoms
    times k; times stay. *)
Definition copied_statistics (k : nat) (b b' : Boot R) : Prop :=
  b_n b' = map (Rmult (INR k * INR k)) (b_n b)
  /\ b_v b' = map (Rmult (INR k * INR k * (INR k * INR k))) (b_v b)
  /\ b_dt b' = b_dt b /\ b_n_o b' = map (Rmult (INR k)) (b_n_o b)
  /\ b_displacements b' = map (copies k) (b_displacements b) /\ b_dims b' = b_dims b.
