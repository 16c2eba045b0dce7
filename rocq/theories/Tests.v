(** * Tests: the model run on the inputs of the unit tests in /repo/kinisi/tests

    These are tests of the model, not proofs of properties. Numbers are rationals; data the Python
    tests draw at random come from a fixed linear congruential sequence, since the tests assert
    only shapes for them. *)
From Verif Require Import Base ModelParser ModelDiffusion ModelHdf ModelAnalyzer.
From Coq Require Import QArith.
Open Scope Z_scope.

Definition q (a : Z) (b : positive) : Q := Qred (a # b).
Definition eq_list (l m : list Q) : bool := Nat.eqb (length l) (length m) && forallb (fun p => Qeq_bool (fst p) (snd p)) (combine l m).
Definition eq_v (v : V3 Q) (l : list Q) : bool := eq_list [vx v; vy v; vz v] l.
Definition eq_vs (vs : list (V3 Q)) (l : list (list Q)) : bool :=
  Nat.eqb (length vs) (length l) && forallb (fun p => eq_v (fst p) (snd p)) (combine vs l).
Definition no_geomspace (_ _ _ : Z) : Res (list Z) := Raise ValueError.
(** np.average in place of the circular mean: any nearby centre gives the same molecule centre. *)
Definition centre (w : option (list Q)) (l : list Q) : Res Q := np_average w l.

(** A linear congruential sequence of small numbers. *)
Fixpoint lcg (n : nat) (s : Z) : list Z :=
  match n with O => [] | S k => let s' := (1103515245 * s + 12345) mod 2147483648 in s' / 65536 - 16384 :: lcg k s' end.
Definition data_row (obs : nat) (s : Z) : list (V3 Q) :=
  let l := lcg (3 * obs) s in map (fun i => mkV (q (nth (3 * i) l 0) 16384) (q (nth (3 * i + 1) l 0) 16384) (q (nth (3 * i + 2) l 0) 16384)) (seq 0 obs).
Definition data_arr (atoms obs : nat) : Arr Q := mkArr obs (map (fun a => data_row obs (Z.of_nat (1000 * obs + a))) (seq 0 atoms)).
Definition shape (d : Arr Q) : nat * list nat := (length (a_rows d), map (@length _) (a_rows d)).

(** test_parser.py: test_parser_delta_t, test_parser_disp_3d, test_get_disps *)
Definition dc := data_arr 10 100.
Definition opts (mn : option Q) : Options Q := mkOptions mn None 100 "linear" "multi-origin" (q 8 1) 8.
Definition p20 := parser_init no_geomspace dc (map Z.of_nat (seq 0 10)) [] (q 1 1) 1 (opts (Some (q 20 1))).
Example test_parser_delta_t : match p20 with Ok p => length (p_delta_t p) = 81%nat | _ => False end.
Proof. vm_compute. reflexivity. Qed.
Example test_parser_disp_3d : match p20 with
  Ok p => length (p_disp_3d p) = 81%nat /\ length (p_n_o p) = 81%nat /\ p_intervals p = map (fun i => 20 + Z.of_nat i) (seq 0 81)
          /\ shape (hd dc (p_disp_3d p)) = (10%nat, repeat 81%nat 10) | _ => False end.
Proof. vm_compute. repeat split. Qed.
(** test_get_time_intervals *)
Example test_get_time_intervals :
  get_time_intervals no_geomspace (q 20 1) (q 100 1) 1 (q 1 1) 80 "linear" = linspace_int (A:=Q) 20 100 80
  /\ match linspace_int (A:=Q) 20 100 80 with Ok l => length l = 80%nat /\ firstn 4 l = [20; 21; 22; 23] /\ skipn 77 l = [97; 98; 100] | _ => False end.
Proof. vm_compute. repeat split. Qed.
(** test_correct_drift_no_framework *)
Example test_correct_drift : correct_drift [] dc = Ok dc.
Proof. vm_compute. reflexivity. Qed.

(** example_drift.XDATCAR, its ASE and LAMMPS versions: one H at rest, eight He moving together *)
Definition cube (l : Z) : M3 Q := mkM (mkV (q l 1) (q 0 1) (q 0 1)) (mkV (q 0 1) (q l 1) (q 0 1)) (mkV (q 0 1) (q 0 1) (q l 1)).
Definition drift_frame (scale : Z) (lo : Z) : Frame Q :=
  let at3 := fun x y z => mkV (q (scale * x) 100) (q (scale * y) 100) (q (scale * z) 100) in
  let hi := lo + 50 in
  mkFrame ("H" :: repeat "He" 8)%string
    [at3 50 50 50; at3 lo lo lo; at3 hi lo lo; at3 lo hi lo; at3 lo lo hi; at3 hi hi lo; at3 hi lo hi; at3 lo hi hi; at3 hi hi hi]
    (cube 10) (q 1000 1).
Definition drift_traj (scale : Z) : list (Frame Q) := map (drift_frame scale) [25; 23; 21; 15].
Definition drift_params (ts : pynum Q) (framework : pyseq Z) : ModelParser.Params Q :=
  mkParams (Some ["H"%string]) ts 1 1 1 (opts None) SINone None framework.
Definition drift_result (framework : pyseq Z) (r : Res (Parsed Q)) (drift : list Z) (dc0 : list (list Q)) : Prop :=
  match r with Ok p => p_indices p = [0] /\ p_drift_indices p = drift /\ eq_vs (hd [] (a_rows (p_dc p))) dc0 = true | _ => False end.
Definition at_rest : list (list Q) := repeat (repeat (q 0 1) 3) 4.
Definition against_drift : list (list Q) := map (fun x => repeat x 3) [q 0 1; q 2 10; q 4 10; q 1 1].
Definition he := [1; 2; 3; 4; 5; 6; 7; 8].
Example test_pymatgen_drift :
  drift_result (PyList []) (pymatgen_parser no_geomspace centre (drift_traj 1) (drift_params (PyFloat (q 1 1)) (PyList []))) [] at_rest
  /\ drift_result PyNone (pymatgen_parser no_geomspace centre (drift_traj 1) (drift_params (PyFloat (q 1 1)) PyNone)) he against_drift.
Proof. vm_compute. repeat split. Qed.
Example test_ase_drift :
  drift_result (PyList []) (ase_parser no_geomspace centre (drift_traj 1) (drift_params (PyInt 1) (PyList []))) [] at_rest
  /\ drift_result PyNone (ase_parser no_geomspace centre (drift_traj 1) (drift_params (PyInt 1) PyNone)) he against_drift.
Proof. vm_compute. repeat split. Qed.
Example test_mda_drift :
  drift_result (PyList []) (mda_parser no_geomspace centre (drift_traj 10) (drift_params (PyInt 1) (PyList []))) [] at_rest
  /\ drift_result PyNone (mda_parser no_geomspace centre (drift_traj 10) (drift_params (PyInt 1) PyNone)) he against_drift.
Proof. vm_compute. repeat split. Qed.

(** example_center.XDATCAR: centre of geometry and centre of mass of one molecule of three atoms *)
Definition centre_frame (x1 x3 : Z) (y2 : Z) : Frame Q :=
  mkFrame ["H"; "He"; "H"]%string [mkV (q x1 100) (q 20 100) (q 20 100); mkV (q 40 100) (q y2 100) (q 20 100); mkV (q x3 100) (q 40 100) (q 20 100)]
    (cube 5) (q 125 1).
Definition centre_traj := [centre_frame 20 22 20; centre_frame 40 20 20; centre_frame 40 20 20; centre_frame 40 20 40].
Definition coords_check (masses : option (list Q)) : Res (list (V3 Q) * list Z) :=
  let! '(st, coords, latt) := get_structure_coords_latt centre_traj 1 in
  let! sel := choose_atoms centre st coords
    (mkParams None (PyFloat (q 1 1)) 1 1 1 (opts None) (SIMol [[1; 2; 3]]) masses PyNone) in
  Ok (hd [] (fst sel), fst (snd sel)).
Example test_cog : match coords_check None with
  Ok (c, ix) => ix = [0] /\ eq_vs c [[q 82 300; q 80 300; q 20 100]] = true | _ => False end.
Proof. vm_compute. repeat split. Qed.
Example test_com : match coords_check (Some [q 1 1; q 16 1; q 1 1]) with
  Ok (c, ix) => ix = [0] /\ eq_vs c [[q 682 1800; q 380 1800; q 20 100]] = true | _ => False end.
Proof. vm_compute. repeat split. Qed.

(** test_diffusion.py: test_ngp_calculation *)
Example test_ngp_calculation : Qeq_bool (ngp_calculation [q 1 1; q 2 1; q 3 1]) (q (-3) 10) = true.
Proof. vm_compute. reflexivity. Qed.

(** Libraries that do the simplest possible thing. *)
Definition stub : Ext Q nat nat nat :=
  mkExt (fun x => x) (fun g n size => (map (fun i => Nat.modulo i n) (seq g size), S g)) (fun _ => q 1 1) (fun _ => (q 0 1, q 0 1)) (fun rs => rs) (fun s => s)
    (fun _ _ _ => Ok (q 1 1))
    (fun m => Ok (repeat (q 1 1) (length m), repeat (repeat (q 1 1) (length m)) (length m)))
    (fun m => Ok m) (fun _ => Ok (q 0 1)) (q 0 1) (fun m => Ok m) (fun _ _ => Ok (q 1 1))
    (fun _ x0 => Ok x0) (fun g rows cols => (repeat (repeat (q 0 1) cols) rows, S g)) (fun _ => true) (fun g _ => ([], S g))
    (fun g mu _ n => (repeat mu n, S g)).
Definition disps (atoms : nat) (from to : nat) : list (Arr Q) := map (fun i => data_arr atoms (from - i)) (seq 0 (from - to)).
Definition dt10 : list Q := map (fun i => q (100 * Z.of_nat (S i)) 1) (seq 0 10).
Definition n_o (n : nat) : list Q := repeat (q 100 1) n.
Definition params (boot : bool) : BootParams Q := mkBootParams 1 boot false 100 1000 (PyStr "xyz") (q 1 1000).

(** Bootstrap: test_initialisation, test_initialisation_sub_sample_dt *)
Example test_initialisation : match bootstrap_init dt10 (disps 4 20 10) (n_o 10) 1 (PyStr "xyz") with
  Ok b => length (b_displacements b) = 10%nat /\ b_max_obs b = 20%nat /\ b_delta_t b = dt10 /\ b_distributions b = [] /\ b_dt b = []
          /\ b_D b = None /\ b_intercept b = None | _ => False end.
Proof. vm_compute. repeat split. Qed.
Example test_initialisation_sub_sample_dt : match bootstrap_init dt10 (disps 4 20 10) (n_o 10) 2 (PyStr "xyz") with
  Ok b => map a_obs (b_displacements b) = [20; 18; 16; 14; 12]%nat /\ b_max_obs b = 20%nat
          /\ b_delta_t b = [q 100 1; q 300 1; q 500 1; q 700 1; q 900 1] | _ => False end.
Proof. vm_compute. repeat split. Qed.

Definition sizes (b : Boot Q) : list nat :=
  [length (b_n b); length (b_s b); length (b_v b); length (b_ngp b); length (b_euclidian b); length (b_dt b); length (b_n_o b)].
(** test_initialisation of the three classes (with and without bootstrapping) *)
Example test_msd : match msd_bootstrap stub (params false) dt10 (disps 4 20 10) (n_o 10) 0%nat with Ok (b, _) => sizes b = repeat 10%nat 7 | _ => False end.
Proof. vm_compute. reflexivity. Qed.
Example test_mstd : match mstd_bootstrap stub (params false) dt10 (disps 4 20 10) (n_o 10) 0%nat with Ok (b, _) => sizes b = repeat 5%nat 7 | _ => False end.
Proof. vm_compute. reflexivity. Qed.
Example test_mscd : match mscd_bootstrap stub (params false) dt10 (disps 4 20 10) (QScalar (q 1 1)) (n_o 10) 0%nat with Ok (b, _) => sizes b = repeat 5%nat 7 | _ => False end.
Proof. vm_compute. reflexivity. Qed.
Example test_msd_resamples : match msd_bootstrap stub (params true) dt10 (disps 4 20 10) (n_o 10) 0%nat with
  Ok (b, _) => map (@length _) (b_distributions b) = repeat 100%nat 10 | _ => False end.
Proof. vm_compute. reflexivity. Qed.
(** test_initialisation_skip_where_low_samples: one atom, 10 down to 2 observations *)
Example test_msd_low : match msd_bootstrap stub (params false) dt10 (disps 1 10 1) (n_o 9) 0%nat with Ok (b, _) => sizes b = repeat 9%nat 7 | _ => False end.
Proof. vm_compute. reflexivity. Qed.
Example test_mstd_low : match mstd_bootstrap stub (params false) dt10 (disps 1 10 1) (n_o 9) 0%nat with Ok (b, _) => sizes b = repeat 4%nat 7 | _ => False end.
Proof. vm_compute. reflexivity. Qed.
Example test_mscd_low : match mscd_bootstrap stub (params false) dt10 (disps 1 10 1) (QScalar (q 1 1)) (n_o 9) 0%nat with Ok (b, _) => sizes b = repeat 4%nat 7 | _ => False end.
Proof. vm_compute. reflexivity. Qed.

(** test_bootstrap, test_bootstrap_dt_skip, test_bootstrap_fit_intercept, test_bootstrap_n_samples,
    test_bootstrap_thin: sizes of the covariance matrix, the coefficient and the intercept *)
Definition gls (start : Z) (intercept : bool) (n_samples thin : Z) : GLSParams Q nat :=
  mkGLSParams (q start 1) (q 10000000000000000 1) true intercept n_samples 32 500 thin None.
Definition fit_sizes (x : Boot Q * nat * Res unit) : option (list (option nat)) :=
  match x with
  | (b, _, Ok _) => Some [option_map (@length _) (b_covariance b); option_map (@length _) (b_D b); option_map (@length _) (b_DJ b);
                          option_map (@length _) (b_sigma b); option_map (@length _) (b_intercept b)]
  | _ => None
  end.
Definition with_boot (r : Res (Boot Q * nat)) (f : Boot Q -> nat -> option (list (option nat))) : option (list (option nat)) :=
  match r with Ok (b, g) => f b g | _ => None end.
Definition small_msd := msd_bootstrap stub (params false) dt10 (disps 4 20 10) (n_o 10) 0%nat.
Definition small_mstd := mstd_bootstrap stub (params false) dt10 (disps 4 20 10) (n_o 10) 0%nat.
Definition small_mscd := mscd_bootstrap stub (params false) dt10 (disps 4 20 10) (QScalar (q 1 1)) (n_o 10) 0%nat.
Definition consts : Consts Q := mkConsts (q 1 1) (q 1 1) (q 1 1).
Example test_bootstrap_msd :
  with_boot small_msd (fun b g => fit_sizes (diffusion stub b (gls 0 true 100 10) g)) = Some [Some 10; Some 320; None; None; Some 320]%nat
  /\ with_boot small_msd (fun b g => fit_sizes (diffusion stub b (gls 150 true 100 10) g)) = Some [Some 9; Some 320; None; None; Some 320]%nat
  /\ with_boot small_msd (fun b g => fit_sizes (diffusion stub b (gls 0 false 50 10) g)) = Some [Some 10; Some 160; None; None; None]%nat
  /\ with_boot small_msd (fun b g => fit_sizes (diffusion stub b (gls 0 true 10 1) g)) = Some [Some 10; Some 320; None; None; Some 320]%nat.
Proof. vm_compute. repeat split. Qed.
Example test_bootstrap_mstd :
  with_boot small_mstd (fun b g => fit_sizes (jump_diffusion stub b (gls 0 true 100 10) g)) = Some [Some 5; None; Some 320; None; Some 320]%nat.
Proof. vm_compute. reflexivity. Qed.
Example test_bootstrap_mscd :
  with_boot small_mscd (fun b g => fit_sizes (conductivity stub consts b (gls 0 true 100 10) (q 1 1) (q 10 1) g)) = Some [Some 5; None; None; Some 320; Some 320]%nat.
Proof. vm_compute. reflexivity. Qed.
(** test_bootstrap_ppd, with 12 instead of 128 *)
Example test_bootstrap_ppd : match small_mstd with
  | Ok (b, g) => match diffusion stub b (gls 0 true 100 10) g with
                 | (b', g', Ok _) => match posterior_predictive stub b' (Some 12%nat) 12 g' with
                                     | (Ok (rows, _)) => length rows = 144%nat /\ Forall (fun r => length r = 5%nat) rows
                                     | _ => False end
                 | _ => False end
  | _ => False end.
Proof. vm_compute. split; [reflexivity|]. repeat constructor. Qed.
