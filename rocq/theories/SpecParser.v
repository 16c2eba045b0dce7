(** * SpecParser: trajectories as inputs of the parsers *)
From Verif Require Import Base Spec ModelParser.
From Coq Require Import Reals Sorting.

(** The trajectory with [n] frames and [natoms] atoms whose fractional coordinates and cells are
    given by functions of the frame (and atom) number. *)
Definition frames_of (types : list string) (vol : R) (n natoms : nat)
    (pos : nat -> nat -> V3 R) (cell : nat -> M3 R) : list (Frame R) :=
  tab n (fun f => mkFrame types (tab natoms (pos f)) (cell f) vol).

(** What the ASE and pymatgen constructors do with a trajectory before any atom selection
    (parser.py 276 and 289, 410 and 423): read every [k]-th frame, then compute displacements. *)
Definition displacements (k : Z) (frames : list (Frame R)) : Res (Arr R) :=
  let! '(_, coords, latt) := get_structure_coords_latt frames k in get_disp coords latt.

(** The unwrapped step of the TOR scheme: congruent to the raw Cartesian difference modulo the
    new cell, and with all fractional components in [-1/2, 1/2). *)
Definition minimum_image_of (cell : M3 R) (raw step : V3 R) : Prop :=
  (exists k : V3 Z, step = minus3 raw (cart cell (ivec k)))
  /\ (exists u, within_half u /\ step = cart cell u).

(** ** Observation windows *)

(** Displacements over windows of [n] frames taken from the accumulated displacements [x] of one
    atom, as multi-origin sampling reports them: first the displacement accumulated at entry
    [n-1], then the windows starting at 0, 1, 2, ... *)
Definition window_obs (x : nat -> V3 R) (n o : nat) : V3 R :=
  match o with O => x (n - 1)%nat | S j => minus3 (x (j + n)%nat) (x j) end.

(** The multi-origin array for [n] frames: one row per selected index, T-n+1 observations. *)
Definition multi_window (N T : nat) (x : nat -> nat -> V3 R) (idx : list Z) (n : nat) : Arr R :=
  mkArr (T - n + 1) (map (fun i => tab (T - n + 1) (window_obs (x (site N i)) n)) idx).

(** The single-origin array: one observation per selected index. *)
Definition single_window (N : nat) (x : nat -> nat -> V3 R) (idx : list Z) (t : nat) : Arr R :=
  mkArr 1 (map (fun i => [x (site N i) t]) idx).

(** An interval is kept when taking every [n]-th observation leaves more than one in total. *)
Definition enough (n_atoms T n : nat) : bool := Nat.ltb 1 (n_atoms * kept (T - n + 1) n).

(** Bytes of an array of 3-vectors. *)
Definition arr_bytes (itemsize : Z) (a : Arr R) : Z :=
  (Z.of_nat (length (a_rows a)) * Z.of_nat (a_obs a) * 3 * itemsize)%Z.
Definition total_bytes (itemsize : Z) (l : list (Arr R)) : Z :=
  fold_right Z.add 0%Z (map (arr_bytes itemsize) l).
Definition in_gigabytes (b : Z) : R := (IZR b / 1000000000)%R.

(** Drift-corrected displacements. *)
Definition corrected (N : nat) (x : nat -> nat -> V3 R) (framework : list Z) (a t : nat) : V3 R :=
  match framework with
  | [] => x a t
  | _ => minus3 (x a t) (average3 (map (fun i => x (site N i) t) framework))
  end.

(** ** Parser options *)
Definition min_time (u : R) (o : Options R) : R := match o_min_dt o with Some m => m | None => u end.
Definition max_time (T : nat) (u : R) (o : Options R) : R :=
  match o_max_dt o with Some m => m | None => INR T * u end%R.

(** Options within the documented ranges for a trajectory of [T] frames [u] apart in time. *)
Record sensible (T : nat) (u : R) (o : Options R) : Prop := {
  sens_unit : (0 < u)%R;
  sens_min : (0 <= min_time u o)%R;
  sens_max : (u <= max_time T u o <= INR T * u)%R;
  sens_order : (min_time u o <= max_time T u o)%R;
  sens_steps : (0 <= o_n_steps o)%Z;
  sens_spacing : o_spacing o = "linear"%string \/ o_spacing o = "logarithmic"%string }.

(** [arr] holds the observations over [n] frames of the selected atoms [idx], taken from the
    accumulated displacements [dc] of [N] atoms and [T] entries. *)
Record is_multi_window (N T : nat) (dc : Arr R) (idx : list Z) (n : nat) (arr : Arr R) : Prop := {
  mw_obs : a_obs arr = (T - n + 1)%nat;
  mw_shape : shape (a_rows arr) (length idx) (T - n + 1);
  mw_first : forall s i, nth_error idx s = Some i ->
      arr_entry arr s 0 = arr_entry dc (site N i) (n - 1) /\ arr_entry arr s 0 <> None;
  mw_rest : forall s i j, nth_error idx s = Some i -> (j + n < T)%nat ->
      exists a b, arr_entry dc (site N i) (j + n) = Some a /\ arr_entry dc (site N i) j = Some b
        /\ arr_entry arr s (S j) = Some (minus3 a b) }.

(** [arr] holds, for each selected atom, the accumulated displacement at entry [t] only. *)
Record is_single_window (N : nat) (dc : Arr R) (idx : list Z) (t : nat) (arr : Arr R) : Prop := {
  sw_obs : a_obs arr = 1%nat;
  sw_shape : shape (a_rows arr) (length idx) 1;
  sw_entry : forall s i, nth_error idx s = Some i ->
      arr_entry arr s 0 = arr_entry dc (site N i) t /\ arr_entry arr s 0 <> None }.

(** ** Whole trajectories *)

(** Displacement of atom [a] between frames [f] and [g], relative to the mean displacement of the
    framework atoms [fw]; [pos f a] are true (unwrapped) Cartesian positions of [N] atoms. *)
Definition relative_displacement (N : nat) (pos : nat -> nat -> V3 R) (fw : list Z) (a f g : nat) : V3 R :=
  match fw with
  | [] => minus3 (pos g a) (pos f a)
  | _ => minus3 (minus3 (pos g a) (pos f a))
                (average3 (map (fun i => minus3 (pos g (site N i)) (pos f (site N i))) fw))
  end.

(** [arr] holds what is reported for an interval of [m] used frames when every [k]-th of the
    frames is used and [T] are used: row [s] is the [s]-th atom of [idx]; observation [S j] is the
    displacement from used frame [j] to used frame [j+m]; observation 0 is the displacement from
    the first used frame to used frame [m-1]. *)
Record reports_interval (N T k : nat) (pos : nat -> nat -> V3 R) (idx fw : list Z) (m : nat) (arr : Arr R) : Prop := {
  ri_obs : a_obs arr = (T - m + 1)%nat;
  ri_shape : shape (a_rows arr) (length idx) (T - m + 1);
  ri_first : forall s i, nth_error idx s = Some i ->
      arr_entry arr s 0 = Some (relative_displacement N pos fw (site N i) 0 ((m - 1) * k));
  ri_rest : forall s i j, nth_error idx s = Some i -> (j + m < T)%nat ->
      arr_entry arr s (S j) = Some (relative_displacement N pos fw (site N i) (j * k) ((j + m) * k)) }.

(** The atoms are chosen by species or by a flat list of indices (not as molecules). *)
Definition atomic_selection {A} (a : Params A) : Prop :=
  a_specie a <> None \/ exists l, a_specie_indices a = SIFlat l.

(** [l] lists, in increasing order, exactly the atoms whose species satisfies [P]. *)
Definition lists_atoms (types : list string) (P : string -> Prop) (l : list Z) : Prop :=
  StronglySorted Z.lt l /\
  forall i, In i l <-> exists a name, i = Z.of_nat a /\ nth_error types a = Some name /\ P name.

(** Between consecutive used frames every atom moves by less than half a cell. *)
Definition small_steps (n natoms k : nat) (x : nat -> nat -> V3 R) : Prop :=
  forall f a, (S f * k < n)%nat -> (a < natoms)%nat ->
    within_half (minus3 (x (S f * k)%nat a) (x (f * k)%nat a)).

(** Simulated time between saved frames [f] and [g]: frames are saved every [ss] steps of [ts]. *)
Definition frame_time (ss : Z) (ts : R) (f g : nat) : R := ((INR g - INR f) * (IZR ss * ts))%R.

(** The selection by species: the diffusing atoms and the framework. *)
Definition species_selection (types specie : list string) (fw : pyseq Z) (idx drift : list Z) : Prop :=
  lists_atoms types (fun s => In s specie) idx /\ idx <> []
  /\ match fw with PyList l => drift = l | _ => lists_atoms types (fun s => ~ In s specie) drift end.
(** [l] lists, in increasing order, the atoms 0..natoms-1 not in [idx]. *)
Definition lists_others (natoms : nat) (idx l : list Z) : Prop :=
  StronglySorted Z.lt l /\ forall i, In i l <-> ((0 <= i < Z.of_nat natoms)%Z /\ ~ In i idx).

(** The same parameters with sub_sample_atoms = 1. *)
Definition without_atom_sampling {A} (a : Params A) : Params A :=
  mkParams (a_specie a) (a_time_step a) (a_step_skip a) 1 (a_sub_sample_traj a) (a_opts a)
           (a_specie_indices a) (a_masses a) (a_framework a).
