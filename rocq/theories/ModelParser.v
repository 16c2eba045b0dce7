(** * ModelParser: kinisi/parser.py

    All line numbers refer to /repo/kinisi/parser.py. The `progress` argument (tqdm bars) is not
    modelled: it only selects the object that is iterated over (lines 186-189, 311-314, ...), and
    both objects iterate over the same elements. *)
From Verif Require Import Base.
From Coq Require Import Reals.
Open Scope Z_scope.
Open Scope string_scope.

(** A Python number given by the user: an int or a float. Only the dtype of [delta_t] depends on
    the distinction (lines 183 and 439). *)
Inductive pynum (A : Type) := PyInt (z : Z) | PyFloat (a : A).
Arguments PyInt {A}. Arguments PyFloat {A}.

(** An optional sequence argument: None, a list/tuple, or any other object (for instance an
    ndarray), as told apart by `isinstance(x, (list, tuple))`. *)
Inductive pyseq (T : Type) := PyNone | PyList (l : list T) | PyOther.
Arguments PyNone {T}. Arguments PyList {T}. Arguments PyOther {T}.

(** The `specie_indices` argument: None, a flat list, a list of lists, or another object. *)
Inductive spec_ix := SINone | SIFlat (l : list Z) | SIMol (l : list (list Z)) | SIOther.

Section Parser.
  Context {A : Type} {NA : Num A}.
  Local Open Scope num_scope.

  (** ** Parser.get_disp (lines 101-129) *)

  (** Lines 113-118: any non-zero off-diagonal cell entry triggers the triclinic UserWarning. *)
  Definition off_diagonal_nonzero (m : M3 A) : bool :=
    negb (neqb (vy (mr0 m)) n0 && neqb (vz (mr0 m)) n0 && neqb (vx (mr1 m)) n0
          && neqb (vz (mr1 m)) n0 && neqb (vx (mr2 m)) n0 && neqb (vy (mr2 m)) n0).
  Definition get_disp_warns (latt : list (M3 A)) : bool := existsb off_diagonal_nonzero latt.

  (** Line 123: `np.diff(wrapped, axis=1)` for one atom. *)
  Definition np_diff (l : list (V3 A)) : list (V3 A) := zip_with (fun a b => vsub b a) l (tl l).

  (** Lines 125-126: `floor(wrapped_diff @ latt_inv + 1/2) @ latt` for one atom and one step. *)
  Definition image_correction (d : V3 A) (l linv : M3 A) : V3 A :=
    vecmat (vmap (fun x => nofZ (nfloor (x + nhalf))) (vecmat d linv)) l.

  (** Line 129: `np.cumsum(..., axis=1)` for one atom. *)
  Fixpoint cumsum_from (acc : V3 A) (l : list (V3 A)) : list (V3 A) :=
    match l with
    | [] => []
    | x :: t => let a := vadd acc x in a :: cumsum_from a t
    end.
  Definition cumsum (l : list (V3 A)) : list (V3 A) :=
    match l with [] => [] | x :: t => x :: cumsum_from x t end.

  (** Lines 122-129 for one atom: [cs] its fractional coordinates in every frame. *)
  Definition get_disp_row (cs : list (V3 A)) (latt latt_inv : list (M3 A)) : list (V3 A) :=
    let wrapped := zip_with vecmat cs latt in
    let wrapped_diff := np_diff wrapped in
    let diff_diff := map (fun p => image_correction (fst p) (fst (snd p)) (snd (snd p)))
                         (combine wrapped_diff (combine (tl latt) (tl latt_inv))) in
    cumsum (zip_with vsub wrapped_diff diff_diff).

  (** Lines 101-129. [coords]: frames, each a list of fractional coordinates (the singleton axis
      added by the callers is dropped). Line 120 raises ValueError for no frames or for frames
      with different atom counts. The warning is [get_disp_warns]. *)
  Definition get_disp (coords : list (list (V3 A))) (latt : list (M3 A)) : Res (Arr A) :=
    match coords with
    | [] => Raise ValueError
    | f0 :: _ =>
        let natoms := length f0 in
        let! _ := guard (forallb (fun f => Nat.eqb (length f) natoms) coords) ValueError in
        let! latt_inv := mapM minv latt in
        let! _ := guard (Nat.eqb (length coords) (length latt)) ValueError in
        Ok (mkArr (length coords - 1)
              (map (fun i => get_disp_row (map (fun f => nth i f v0) coords) latt latt_inv)
                   (seq 0 natoms)))
    end.

  (** ** Parser.correct_drift (lines 131-148) *)
  Definition vmean (l : list (V3 A)) : V3 A :=
    mkV (nmean (map vx l)) (nmean (map vy l)) (nmean (map vz l)).

  Definition correct_drift (drift_indices : list Z) (disp : Arr A) : Res (Arr A) :=
    match drift_indices with
    | [] => Ok disp                                              (* line 147 *)
    | _ =>
        let! framework_disp := gather (a_rows disp) drift_indices in   (* line 144 *)
        let avg := map (fun t => vmean (map (fun r => nth t r v0) framework_disp))
                       (seq 0 (a_obs disp)) in
        Ok (mkArr (a_obs disp) (map (fun r => zip_with vsub r avg) (a_rows disp)))  (* line 145 *)
    end.

  (** ** numpy.linspace / numpy.unique as used in lines 163-166 *)

  (** `np.linspace(start, stop, num)` before any dtype conversion (NumPy source,
      numpy/_core/function_base.py): y = arange(num)*step + start with step = delta/(num-1), the
      case step == 0 handled separately, and the last point overwritten by stop when num > 1. *)
  Definition linspace_point (start stop : A) (num : nat) (i : nat) : A :=
    let delta := stop - start in
    let div := nofnat (num - 1) in
    let y := if Nat.ltb 1 num
             then let step := delta / div in
                  if neqb step n0 then (nofnat i / div) * delta else nofnat i * step
             else nofnat i * delta in
    if Nat.ltb 1 num && Nat.eqb i (num - 1) then stop else y + start.
  Definition linspace (start stop : A) (num : nat) : list A :=
    map (linspace_point start stop num) (seq 0 num).
  (** `np.linspace(start, stop, num, dtype=int)`: integer dtypes are floored; a negative num
      raises ValueError. *)
  Definition linspace_int (start stop num : Z) : Res (list Z) :=
    let! _ := guard (0 <=? num)%Z ValueError in
    Ok (map nfloor (linspace (nofZ start) (nofZ stop) (Z.to_nat num))).

  (** ** Parser.get_time_intervals (lines 150-168)

      [geomspace start stop num] is `np.geomspace(start, stop, num, dtype=int)`; see
      [geomspace_R] below for the real-number version. [unique] is `np.unique`. *)
  Fixpoint insert_unique (x : Z) (l : list Z) : list Z :=
    match l with
    | [] => [x]
    | y :: t => if (x <? y)%Z then x :: l else if (x =? y)%Z then l else y :: insert_unique x t
    end.
  Definition unique (l : list Z) : list Z := fold_right insert_unique [] l.

  Definition get_time_intervals (geomspace : Z -> Z -> Z -> Res (list Z))
      (p_min_dt p_max_dt : A) (step_skip : Z) (time_step : A) (n_steps : Z) (spacing : string)
    : Res (list Z) :=
    let unit := nofZ step_skip * time_step in
    let! qmin := py_div p_min_dt unit in
    let! min_dt := py_int qmin in                                 (* line 159 *)
    let! qmax := py_div p_max_dt unit in
    let! max_dt := py_int qmax in                                 (* line 160 *)
    let min_dt := if (min_dt =? 0)%Z then 1%Z else min_dt in      (* lines 161-162 *)
    if (spacing =? "linear")%string then linspace_int min_dt max_dt n_steps
    else if (spacing =? "logarithmic")%string
         then let! g := geomspace min_dt max_dt n_steps in Ok (unique g)
    else Raise ValueError.

  (** ** Parser.get_disps (lines 170-222) *)

  (** Lines 202-203: single-origin: `drift_corrected[indices, i:i+1]`, [i] the loop counter. *)
  Definition single_origin (i : nat) (sel : list (list (V3 A))) (T : nat) : Arr A :=
    mkArr (length (firstn 1 (skipn i (seq 0 T)))) (map (fun r => firstn 1 (skipn i r)) sel).

  (** Lines 208-213: multi-origin, for one selected atom with displacement series [r]. *)
  Definition multi_origin_row (ti : Z) (r : list (V3 A)) : Res (list (V3 A)) :=
    let! first := py_index r (ti - 1) in
    let! rest := broadcast2 vsub (py_from ti r) (py_to (- ti) r) in
    Ok (first :: rest).

  (** The number of observations of that array (its axis 1), computed from shapes alone as NumPy
      does, so that it is defined for zero selected atoms. *)
  Definition multi_origin (ti : Z) (sel : list (list (V3 A))) (T : nat) : Res (Arr A) :=
    let! shape := broadcast2 (fun a _ => a) (py_from ti (seq 0 T)) (py_to (- ti) (seq 0 T)) in
    let! _ := py_index (seq 0 T) (ti - 1) in
    let! rows := mapM (multi_origin_row ti) sel in
    Ok (mkArr (S (length shape)) rows).

  (** Lines 202-219: the displacement array for loop counter [i] and interval [ti]. *)
  Definition window (sampling : string) (i : nat) (ti : Z) (sel : list (list (V3 A))) (T : nat)
    : Res (Arr A) :=
    if (sampling =? "single-origin")%string then Ok (single_origin i sel T)
    else if (sampling =? "multi-origin")%string then multi_origin ti sel T
    else Raise ValueError.

  (** Lines 190-195: bytes needed, summed over intervals; the trailing factor 1e-9 is applied by
      the caller. `drift_corrected[indices, ti::]` has shape (len(indices), T', 3). *)
  Definition interval_bytes (n_sel : nat) (T : nat) (itemsize : Z) (ti : Z) : Z :=
    (Z.of_nat n_sel * Z.of_nat (length (py_from ti (seq 0 T))) * 3 * itemsize
     + Z.of_nat n_sel * 3 * itemsize)%Z.
  Definition disp_bytes (n_sel T : nat) (itemsize : Z) (tis : list Z) : Z :=
    fold_left (fun acc ti => (acc + interval_bytes n_sel T itemsize ti)%Z) tis 0%Z.

  (** Lines 201-221. [last] is `time_intervals[-1]`. *)
  Fixpoint disps_loop (sampling : string) (sel : list (list (V3 A))) (T : nat) (last : Z)
      (i : nat) (tis : list Z) : Res (list (Arr A) * list A) :=
    match tis with
    | [] => Ok ([], [])
    | ti :: rest =>
        let! disp := window sampling i ti sel T in
        let! cnt := stride_count ti (a_obs disp) in               (* lines 204, 214 *)
        let! tail := disps_loop sampling sel T last (S i) rest in
        if (Z.of_nat (length (a_rows disp)) * cnt <=? 1)%Z then Ok tail   (* continue *)
        else Ok (disp :: fst tail,
                 (nofnat (length (a_rows disp)) * nofZ last / nofZ ti) :: snd tail)  (* line 221 *)
    end.

  Definition gigabytes (bytes : Z) : A := nofZ bytes * (n1 / nofZ 1000000000).   (* line 195 *)

  (** Lines 170-222. [itemsize] is `drift_corrected.itemsize` (8 for float64). When there are no
      intervals nothing is indexed, hence the case split on [tis]. *)
  Definition get_disps (time_step : A) (step_skip : Z) (indices : list Z) (sampling : string)
      (memory_limit : A) (itemsize : Z) (tis : list Z) (dc : Arr A)
    : Res (list A * list (Arr A) * list A) :=
    let delta_t := map (fun ti => nofZ ti * time_step * nofZ step_skip) tis in    (* line 183 *)
    match tis with
    | [] => if memory_limit <? gigabytes 0 then Raise MemoryError else Ok (delta_t, [], [])
    | _ :: _ =>
        let! sel := gather (a_rows dc) indices in
        let mem := gigabytes (disp_bytes (length indices) (a_obs dc) itemsize tis) in
        if memory_limit <? mem then Raise MemoryError             (* lines 196-200 *)
        else
          let! r := disps_loop sampling sel (a_obs dc) (last tis 0%Z) 0 tis in
          Ok (delta_t, fst r, snd r)
    end.

  (** ** Parser.__init__ (lines 53-92) *)
  Record Parsed := mkParsed {
    p_intervals : list Z;        (* self.time_intervals *)
    p_delta_t : list A;          (* self.delta_t *)
    p_disp_3d : list (Arr A);    (* self.disp_3d *)
    p_n_o : list A;              (* self._n_o *)
    p_dc : Arr A;                (* self.dc *)
    p_indices : list Z;          (* self.indices *)
    p_drift_indices : list Z;    (* self.drift_indices *)
    p_min_dt : A; p_max_dt : A;  (* self.min_dt, self.max_dt *)
    p_volume : option A          (* self._volume *) }.

  Record Options := mkOptions {
    o_min_dt : option A; o_max_dt : option A; o_n_steps : Z; o_spacing : string;
    o_sampling : string; o_memory_limit : A; o_itemsize : Z }.

  Definition parser_init (geomspace : Z -> Z -> Z -> Res (list Z)) (disp : Arr A)
      (indices drift_indices : list Z) (time_step : A) (step_skip : Z) (o : Options) : Res Parsed :=
    let! dc := correct_drift drift_indices disp in                             (* line 77 *)
    let unit := nofZ step_skip * time_step in
    let T := Z.of_nat (a_obs dc) in
    let max_dt := match o_max_dt o with Some m => m | None => nofZ T * unit end in   (* 80-81 *)
    let min_dt := match o_min_dt o with Some m => m | None => unit end in            (* 82-83 *)
    let! q := py_div min_dt unit in
    let! min_dt_int := py_int q in                                             (* line 84 *)
    if (T <=? min_dt_int)%Z then Raise ValueError                              (* lines 85-86 *)
    else
      let n_steps := if (T - min_dt_int + 1 <? o_n_steps o)%Z
                     then (T - min_dt_int + 1)%Z else o_n_steps o in           (* lines 87-88 *)
      let! tis := get_time_intervals geomspace min_dt max_dt step_skip time_step n_steps (o_spacing o) in
      let! r := get_disps time_step step_skip indices (o_sampling o) (o_memory_limit o)
                          (o_itemsize o) tis dc in
      Ok (mkParsed tis (fst (fst r)) (snd (fst r)) (snd r) dc indices drift_indices min_dt max_dt None).

  (** ** Atom selection *)

  (** get_indices of the three parsers (ASE 327-356, pymatgen 475-508, MDAnalysis 640-671): the
      three bodies are the same up to the attribute that names an atom's species. [specie] is the
      list after `if not isinstance(specie, list): specie = [specie]`. *)
  Fixpoint select_where (want : bool) (specie : list string) (i : Z) (types : list string) : list Z :=
    match types with
    | [] => []
    | s :: t =>
        if Bool.eqb (existsb (String.eqb s) specie) want
        then i :: select_where want specie (i + 1)%Z t
        else select_where want specie (i + 1)%Z t
    end.
  Definition get_indices (types : list string) (specie : list string) (framework : pyseq Z)
    : Res (list Z * list Z) :=
    let indices := select_where true specie 0%Z types in
    let drift_indices := select_where false specie 0%Z types in
    match indices with
    | [] => Raise ValueError
    | _ => match framework with
           | PyList l => Ok (indices, l)
           | _ => Ok (indices, drift_indices)
           end
    end.

  (** `[i for i, site in enumerate(structure) if i not in indices]` (lines 704-706, 760-762). *)
  Definition complement (natoms : nat) (indices : list Z) : list Z :=
    filter (fun i => negb (existsb (Z.eqb i) indices)) (map Z.of_nat (seq 0 natoms)).

  (** _get_framework (lines 741-764). With a framework list, `drift_indices` is an ndarray, which
      has no `append`: the loop raises AttributeError at the first atom not in [indices]. *)
  Definition get_framework (natoms : nat) (indices : list Z) (framework : pyseq Z)
    : Res (list Z * list Z) :=
    match framework with
    | PyList l =>
        match complement natoms indices with
        | [] => Ok (indices, map (fun z => (z - 1)%Z) l)
        | _ :: _ => Raise AttributeError
        end
    | _ => Ok (indices, complement natoms indices)
    end.

  (** ** _get_molecules (lines 674-738) *)

  (** `np.average(l, weights=w)`: the mean when [w] is None; ZeroDivisionError when the weights
      sum to zero. *)
  Definition np_average (w : option (list A)) (l : list A) : Res A :=
    match w with
    | None => Ok (nmean l)
    | Some ws => if neqb (nsum ws) n0 then Raise ZeroDivisionError
                 else Ok (nsum (zip_with nmul ws l) / nsum ws)
    end.

  (** Lines 727-729 for one axis: [c] is `new_s_coords` (the circular mean), [s] the fractional
      coordinates of the molecule's atoms. *)
  Definition pseudo_com (c : A) (w : option (list A)) (s : list A) : Res A :=
    let shift := c + nhalf in
    let! com := np_average w (map (fun x => nmod1 (x - shift)) s) in
    Ok (nmod1 (com + shift)).

  (** Lines 718-729 for one axis; [circ] computes `new_s_coords` (lines 718-724). *)
  Definition molecule_axis (circ : option (list A) -> list A -> Res A) (w : option (list A)) (s : list A)
    : Res A := let! c := circ w s in pseudo_com c w s.

  Definition molecule_centre (circ : option (list A) -> list A -> Res A) (w : option (list A))
      (atoms : list (V3 A)) : Res (V3 A) :=
    let! x := molecule_axis circ w (map vx atoms) in
    let! y := molecule_axis circ w (map vy atoms) in
    let! z := molecule_axis circ w (map vz atoms) in
    Ok (mkV x y z).

  (** `np.array(indices)` needs all molecules of one length (lines 694-697). *)
  Definition same_length {T} (l : list (list T)) : bool :=
    match l with
    | [] => true
    | x :: _ => forallb (fun y => Nat.eqb (length y) (length x)) l
    end.

  (** Lines 731: one frame of the new coordinates. *)
  Definition molecule_frame (circ : option (list A) -> list A -> Res A) (w : option (list A))
      (mols : list (list Z)) (drift : list Z) (frame : list (V3 A)) : Res (list (V3 A)) :=
    let! centres := mapM (fun m => let! atoms := gather frame m in molecule_centre circ w atoms) mols in
    let! fw := gather frame drift in
    Ok (centres ++ fw)%list.

  (** Lines 674-738. With an empty framework list, `np.array([]) - 1` is a float array and using
      it as an index (line 731) raises IndexError. *)
  Definition get_molecules (circ : option (list A) -> list A -> Res A) (natoms : nat)
      (coords : list (list (V3 A))) (indices : list (list Z)) (masses : option (list A))
      (framework : pyseq Z) : Res (list (list (V3 A)) * (list Z * list Z)) :=
    let! _ := guard (same_length indices) ValueError in
    let mols := map (map (fun z => (z - 1)%Z)) indices in                       (* line 695 *)
    let drift := match framework with
                 | PyList l => map (fun z => (z - 1)%Z) l                       (* line 702 *)
                 | _ => complement natoms (concat mols)                         (* lines 704-706 *)
                 end in
    let! _ := match masses with
              | None => Ok tt
              | Some m => guard (Nat.eqb (length m) (length (hd [] mols))) ValueError  (* 710-711 *)
              end in
    let! _ := guard (same_length coords) ValueError in                          (* line 716 *)
    let! _ := mapM (fun frame => mapM (gather frame) mols) coords in            (* line 717 *)
    let! _ := match framework with PyList [] => Raise IndexError | _ => Ok tt end in
    let! new_coords := mapM (molecule_frame circ masses mols drift) coords in
    let n_molecules := length indices in
    Ok (new_coords, (map Z.of_nat (seq 0 n_molecules),                          (* line 732 *)
                     map Z.of_nat (seq n_molecules (length drift)))).           (* line 733 *)

  (** ** The three parsers *)

  (** One trajectory frame as delivered by the reader libraries. For ASE ([get_scaled_positions])
      and pymatgen ([frac_coords]) [f_pos] are fractional coordinates and [f_cell] the lattice
      matrix; for MDAnalysis [f_pos] are Cartesian positions and [f_cell] `triclinic_dimensions`. *)
  Record Frame := mkFrame { f_types : list string; f_pos : list (V3 A); f_cell : M3 A; f_volume : A }.

  Record Structure := mkStructure { s_types : list string; s_volume : A }.

  (** Lines 323-324, 471-472, 636-637: `coords.insert(0, coords[0])`, IndexError when empty. *)
  Definition duplicate_first {T} (l : list T) : Res (list T) :=
    match l with [] => Raise IndexError | x :: _ => Ok (x :: l) end.

  (** ASEParser.get_structure_coords_latt (295-325) and PymatgenParser's (441-473): the two bodies
      are the same once positions are fractional. *)
  Definition get_structure_coords_latt (frames : list Frame) (sub_sample_traj : Z)
    : Res (Structure * list (list (V3 A)) * list (M3 A)) :=
    let! sub := py_stride sub_sample_traj frames in
    let! coords := duplicate_first (map f_pos sub) in
    let! latt := duplicate_first (map f_cell sub) in
    match sub with
    | [] => Raise IndexError
    | f :: _ => Ok (mkStructure (f_types f) (f_volume f), coords, latt)
    end.

  (** MDAnalysisParser.get_structure_coords_latt (601-638). *)
  Definition get_structure_coords_latt_mda (frames : list Frame) (sub_sample_atoms sub_sample_traj : Z)
    : Res (Structure * list (list (V3 A)) * list (M3 A)) :=
    let! sub := py_stride sub_sample_traj frames in
    let! scaled := mapM (fun f =>
        let! inv_matrix := minv (f_cell f) in                       (* line 633 *)
        let! atoms := py_stride sub_sample_atoms (f_pos f) in
        Ok (map (fun p => vecmat p inv_matrix) atoms)) sub in       (* line 634 *)
    let! coords := duplicate_first scaled in
    let! latt := duplicate_first (map f_cell sub) in
    match sub with
    | [] => Raise IndexError
    | f :: _ => let! types := py_stride sub_sample_atoms (f_types f) in   (* line 629 *)
                Ok (mkStructure types (f_volume f), coords, latt)
    end.

  Record Params := mkParams {
    a_specie : option (list string); a_time_step : pynum A; a_step_skip : Z;
    a_sub_sample_atoms : Z; a_sub_sample_traj : Z; a_opts : Options;
    a_specie_indices : spec_ix; a_masses : option (list A); a_framework : pyseq Z }.

  Definition pynum_val (n : pynum A) : A := match n with PyInt z => nofZ z | PyFloat a => a end.

  (** The selection branch shared by the three constructors (279-287, 413-421, 573-583). *)
  Definition choose_atoms (circ : option (list A) -> list A -> Res A) (st : Structure)
      (coords : list (list (V3 A))) (a : Params) : Res (list (list (V3 A)) * (list Z * list Z)) :=
    match a_specie a with
    | Some specie => let! ix := get_indices (s_types st) specie (a_framework a) in Ok (coords, ix)
    | None =>
        match a_specie_indices a with
        | SIFlat [] => Raise IndexError
        | SIMol [] => Raise IndexError
        | SIMol l => get_molecules circ (length (s_types st)) coords l (a_masses a) (a_framework a)
        | SIFlat l => let! ix := get_framework (length (s_types st)) l (a_framework a) in Ok (coords, ix)
        | SINone | SIOther => Raise TypeError
        end
    end.

  Definition set_volume (p : Parsed) (v : A) : Parsed :=
    mkParsed (p_intervals p) (p_delta_t p) (p_disp_3d p) (p_n_o p) (p_dc p) (p_indices p)
             (p_drift_indices p) (p_min_dt p) (p_max_dt p) (Some v).
  Definition set_delta_t (p : Parsed) (d : list A) : Parsed :=
    mkParsed (p_intervals p) d (p_disp_3d p) (p_n_o p) (p_dc p) (p_indices p)
             (p_drift_indices p) (p_min_dt p) (p_max_dt p) (p_volume p).

  (** The common tail of the three constructors: displacements, then Parser.__init__. *)
  Definition finish_parse geomspace circ (st : Structure) coords latt (a : Params) (step_skip : Z)
    : Res Parsed :=
    let! sel := choose_atoms circ st coords a in
    let! disp := get_disp (fst sel) latt in
    let! p := parser_init geomspace disp (fst (snd sel)) (snd (snd sel))
                          (pynum_val (a_time_step a)) step_skip (a_opts a) in
    Ok (set_volume p (s_volume st)).

  (** ASEParser.__init__ (260-293): `step_skip` is passed on unscaled (line 291). *)
  Definition ase_parser geomspace circ (frames : list Frame) (a : Params) : Res Parsed :=
    let! '(st, coords, latt) := get_structure_coords_latt frames (a_sub_sample_traj a) in
    finish_parse geomspace circ st coords latt a (a_step_skip a).

  (** PymatgenParser.__init__ (394-439). Line 439 multiplies [delta_t] in place by 1e-3: NumPy
      refuses to store floats in an integer array, which is what [delta_t] is when time_step is a
      Python int. *)
  Definition pymatgen_parser geomspace circ (frames : list Frame) (a : Params) : Res Parsed :=
    let! '(st, coords, latt) := get_structure_coords_latt frames (a_sub_sample_traj a) in
    let! p := finish_parse geomspace circ st coords latt a (a_step_skip a * a_sub_sample_traj a)%Z in
    match a_time_step a with
    | PyInt _ => Raise UFuncTypeError
    | PyFloat _ => Ok (set_delta_t p (map (fun d => d * (n1 / nofZ 1000)) (p_delta_t p)))
    end.

  (** MDAnalysisParser.__init__ (548-599). *)
  Definition mda_parser geomspace circ (frames : list Frame) (a : Params) : Res Parsed :=
    let! _ := guard ((a_sub_sample_atoms a =? 1)%Z
                     || match a_specie_indices a with SINone => true | _ => false end) ValueError in
    let! '(st, coords, latt) :=
        get_structure_coords_latt_mda frames (a_sub_sample_atoms a) (a_sub_sample_traj a) in
    finish_parse geomspace circ st coords latt a (a_step_skip a * a_sub_sample_traj a)%Z.
End Parser.

Arguments Options A : clear implicits.
Arguments Params A : clear implicits.
Arguments Parsed A : clear implicits.
Arguments Frame A : clear implicits.
Arguments Structure A : clear implicits.

(** ** Real-number versions of the transcendental parts *)

(** `np.geomspace(start, stop, num, dtype=int)` for positive start and stop (line 166; NumPy
    source numpy/_core/function_base.py): 10**linspace(log10 start, log10 stop, num), both end
    points overwritten by the exact values, then truncated to int. A zero end point or negative
    num raises ValueError. Negative end points (which NumPy treats by a sign flip or NaN) are
    outside the modelled domain and rejected here. *)
Definition log10_R (x : R) : R := (ln x / ln 10)%R.
Definition geomspace_point_R (start stop : Z) (num i : nat) : R :=
  if Nat.eqb i 0 then IZR start
  else if Nat.ltb 1 num && Nat.eqb i (num - 1) then IZR stop
  else Rpower 10 (linspace_point (log10_R (IZR start)) (log10_R (IZR stop)) num i).
Definition geomspace_R (start stop num : Z) : Res (list Z) :=
  if (start <=? 0)%Z || (stop <=? 0)%Z || (num <? 0)%Z then Raise ValueError
  else Ok (map (fun i => Rtrunc (geomspace_point_R start stop (Z.to_nat num) i))
               (seq 0 (Z.to_nat num))).

(** `np.arctan2(y, x)` on the reals. NumPy's distinction of signed zeros is dropped: on the
    negative x axis (y = 0) the value pi is used (NumPy gives -pi for y = -0.0). *)
Definition atan2 (y x : R) : R :=
  if Rlt_dec 0 x then atan (y / x)
  else if Rlt_dec x 0 then (if Rle_dec 0 y then atan (y / x) + PI else atan (y / x) - PI)%R
  else if Rlt_dec 0 y then (PI / 2)%R else if Rlt_dec y 0 then (- PI / 2)%R else 0%R.

(** Lines 718-724 for one axis of one molecule. *)
Definition circular_mean_R (w : option (list R)) (s : list R) : Res R :=
  let theta := map (fun x => x * (2 * PI))%R s in
  let! xi_bar := np_average w (map cos theta) in
  let! zeta_bar := np_average w (map sin theta) in
  let theta_bar := (atan2 (- zeta_bar) (- xi_bar) + PI)%R in
  Ok (theta_bar / (2 * PI))%R.
