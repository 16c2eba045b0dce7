(** * PropertiesSave: C42, C43, C56

    [T] is the type of arrays, [F] of floats. A file system maps names to HDF5 files. *)
From Verif Require Import Base Spec SpecStats SpecFit SpecHdf SpecAnalyzer SpecSave ModelDiffusion ModelHdf ModelAnalyzer ProofsStats ProofsStats2 ProofsFit2 ProofsAnalyzer ProofsHdf ProofsSave SpecRun.
From Coq Require Import Reals Ascii.
Open Scope Z_scope.
Open Scope string_scope.

(** ** C42

    [supported]: numbers, text, arrays, None; non-empty lists of those (but None) and of dictionaries of
    those; non-empty dictionaries of all this, nested to any depth, keys usable as names. [loads_as]
    says what each comes back as. The bound [n] is the recursion depth needed. *)
Theorem C42_round_trip : forall T F (d : list (string * pyval T F)) s filename,
  key_names d -> Forall (fun kv => supported (snd kv)) d -> s (hdf_name filename) = None ->
  exists s', save s filename d = (s', Ok tt)
    /\ exists n, forall fuel, (n <= fuel)%nat -> exists d', load fuel s' filename = Ok d' /\ loads_as (VDict d) (VDict d').
Proof. exact @C42_proof. Qed.
Print Assumptions C42_round_trip.
(** Arrays, floats, bytes, None and their containers come back as they were. *)
Theorem C42_identical : forall T F (d : list (string * pyval T F)) s filename,
  key_names d -> Forall (fun kv => supported (snd kv)) d -> Forall (fun kv => unchanged (snd kv)) d -> s (hdf_name filename) = None ->
  exists s', save s filename d = (s', Ok tt)
    /\ exists n, forall fuel, (n <= fuel)%nat -> exists d', load fuel s' filename = Ok d' /\ py_same (VDict d) (VDict d').
Proof. exact @C42_unchanged_proof. Qed.
Print Assumptions C42_identical.
Example C42_example : forall T F (x y : F) (a : T),
  reload [("z", VList (map (fun n => VFloat x) (seq 0 10) ++ [VFloat y; VArr a]))%list; ("b", VDict [("c", VNone); ("a", VDict [("q", VFloat x)])])]
  = Ok [("b", VDict [("a", VDict [("q", VFloat x)]); ("c", VNone)]); ("z", VList (map (fun n => VFloat x) (seq 0 10) ++ [VFloat y; VArr a]))]%list.
Proof. intros. reflexivity. Qed.

(** An analyser in any state comes back as it was, its `dimension` as bytes ... *)
Theorem C42_analyzer : forall G Seed RS (X : Ext R G Seed RS) to_d of_d, dist_dicts to_d of_d ->
  forall u a s filename, u_sub_sample_dt u = 1 -> reachable X u (an_diff a) ->
  an_disp_3d (an_data a) <> [] -> b_euclidian (an_diff a) <> [] -> s (hdf_name filename) = None ->
  exists s', analyzer_save to_d s filename a = (s', Ok tt) /\ exists n, forall fuel, (n <= fuel)%nat ->
    analyzer_load of_d fuel s' filename = Ok (mkAn (an_data a) (with_dim (an_diff a) (as_bytes (b_dimension (an_diff a))))).
Proof. exact @C42_analyzer_proof. Qed.
Print Assumptions C42_analyzer.
(** ... which no later call can see. *)
Theorem C42_later_calls : forall G Seed RS (X : Ext R G Seed RS) b dm c g b' g' o,
  run_call X b g c = (b', g', o) -> run_call X (with_dim b dm) g c = (with_dim b' dm, g', o).
Proof. exact @C42_calls_proof. Qed.
Print Assumptions C42_later_calls.
Example C42_analyzer_example : forall G Seed RS (X : Ext R G Seed RS) (g : G), dist_dicts demo_to_d demo_of_d
  /\ exists a, reachable X (demo_boot 1 "xyz") (an_diff a) /\ an_disp_3d (an_data a) <> [] /\ b_euclidian (an_diff a) <> [] /\ b_n (an_diff a) = [2;4]%R.
Proof. intros G Seed RS X g. exact (conj demo_dist_dicts (demo_analyzer X g)). Qed.

(** Values that are accepted by save and not given back by load. [reload d] saves [d] to a new file
    and loads it. *)
Theorem C42_text_refuted : exists d : list (string * pyval unit unit), d = [("k", VStr "a")] /\ reload d = Ok [("k", VBytes "a")].
Proof. exact (ex_intro _ _ (conj eq_refl eq_refl)). Qed.
Print Assumptions C42_text_refuted.
Theorem C42_null_text_refuted : exists d : list (string * pyval unit unit), d = [("k", VStr "NULL")] /\ reload d = Ok [("k", VNone)].
Proof. exact (ex_intro _ _ (conj eq_refl eq_refl)). Qed.
Print Assumptions C42_null_text_refuted.
Theorem C42_empty_list_refuted : exists d : list (string * pyval unit unit), d = [("k", VList [])] /\ reload d = Ok [].
Proof. exact (ex_intro _ _ (conj eq_refl eq_refl)). Qed.
Print Assumptions C42_empty_list_refuted.
Theorem C42_none_in_list_refuted : exists d : list (string * pyval unit unit),
  d = [("k", VList [VFloat tt; VNone; VFloat tt])] /\ reload d = Ok [("k", VList [VFloat tt; VFloat tt])].
Proof. exact (ex_intro _ _ (conj eq_refl eq_refl)). Qed.
Print Assumptions C42_none_in_list_refuted.
Theorem C42_list_of_nested_dicts_refuted : exists d : list (string * pyval unit unit),
  d = [("k", VList [VDict [("m", VDict [("n", VFloat tt)])]])] /\ reload d = Raise KeyError.
Proof. exact (ex_intro _ _ (conj eq_refl eq_refl)). Qed.
Print Assumptions C42_list_of_nested_dicts_refuted.
Theorem C42_key_list_refuted : exists d : list (string * pyval unit unit),
  d = [("k", VDict [("list_of_runs", VFloat tt)])] /\ reload d = Raise ValueError.
Proof. exact (ex_intro _ _ (conj eq_refl eq_refl)). Qed.
Print Assumptions C42_key_list_refuted.
Theorem C42_key_slash_refuted : exists d : list (string * pyval unit unit),
  d = [("a/b", VFloat tt)] /\ reload d = Ok [("a", VDict [("b", VFloat tt)])].
Proof. exact (ex_intro _ _ (conj eq_refl eq_refl)). Qed.
Print Assumptions C42_key_slash_refuted.
(** An analyser for which no interval was analysed is saved without error and can never be loaded;
    a jump-diffusion analyser of one interval is such an analyser. *)
Theorem C42_nothing_analysed : forall G Seed RS (X : Ext R G Seed RS) to_d of_d, dist_dicts to_d of_d ->
  forall u a s filename, u_sub_sample_dt u = 1 -> reachable X u (an_diff a) ->
  an_disp_3d (an_data a) <> [] -> b_euclidian (an_diff a) = [] -> s (hdf_name filename) = None ->
  exists s', analyzer_save to_d s filename a = (s', Ok tt) /\ exists n, forall fuel, (n <= fuel)%nat ->
    analyzer_load of_d fuel s' filename = Raise KeyError.
Proof. exact @C42_nothing_proof. Qed.
Print Assumptions C42_nothing_analysed.
Theorem C42_one_interval_refuted : forall G Seed RS (X : Ext R G Seed RS) (g : G) to_d of_d, dist_dicts to_d of_d -> exists a,
  jump_diffusion_analyzer X one_interval (demo_boot 1 "xyz") g = Ok (a, g)
  /\ forall s filename, s (hdf_name filename) = None -> exists s', analyzer_save to_d s filename a = (s', Ok tt)
       /\ exists n, forall fuel, (n <= fuel)%nat -> analyzer_load of_d fuel s' filename = Raise KeyError.
Proof. exact @C42_one_interval_proof. Qed.
Print Assumptions C42_one_interval_refuted.

(** ** C43 *)
Theorem C43_never_overwrites : forall T F (s : fs (T:=T) (F:=F)) filename (d : list (string * pyval T F)) name f,
  s name = Some f -> fst (save s filename d) name = Some f.
Proof. exact @C43_kept_proof. Qed.
Print Assumptions C43_never_overwrites.
Theorem C43_existing_refused : forall T F (s : fs (T:=T) (F:=F)) filename (d : list (string * pyval T F)) f,
  s (hdf_name filename) = Some f -> save s filename d = (s, Raise ValueError).
Proof. exact @C43_refuses_proof. Qed.
Print Assumptions C43_existing_refused.
Theorem C43_other_files : forall T F (s : fs (T:=T) (F:=F)) filename (d : list (string * pyval T F)) name,
  name <> hdf_name filename -> fst (save s filename d) name = s name.
Proof. exact @C43_others_proof. Qed.
Print Assumptions C43_other_files.
(** Whatever the extension given to load, it reads the file of that stem and nothing else. *)
Theorem C43_load_reads : forall T F fuel (s s2 : fs (T:=T) (F:=F)) f1 f2,
  hdf_name f1 = hdf_name f2 -> s (hdf_name f1) = s2 (hdf_name f1) -> load fuel s f1 = load fuel s2 f2.
Proof. exact @C43_load_reads_proof. Qed.
Print Assumptions C43_load_reads.
Theorem C43_extension_replaced : forall stem ext, dot_free ext -> hdf_name (stem ++ "." ++ ext) = stem ++ ".hdf".
Proof. exact C43_extension_proof. Qed.
Print Assumptions C43_extension_replaced.
Theorem C43_extension_added : forall stem, dot_free stem -> hdf_name stem = stem ++ ".hdf".
Proof. exact C43_no_extension_proof. Qed.
Print Assumptions C43_extension_added.
Example C43_example : hdf_name "data/run.1.h5" = "data/run.1.hdf" /\ hdf_name "data/run" = "data/run.hdf" /\ dot_free "h5".
Proof. split; [reflexivity|]. split; [reflexivity|]. intros [H|[H|[]]]; discriminate H. Qed.
(** A dot in a directory name and none in the file name: the file lands elsewhere, and files of
    different directories share one name. *)
Theorem C43_directory_refuted : exists f1 f2, f1 = "../run1/out" /\ f2 = "../run2/out" /\ hdf_name f1 = "..hdf" /\ hdf_name f2 = "..hdf".
Proof. exact (ex_intro _ _ (ex_intro _ _ (conj eq_refl (conj eq_refl (conj eq_refl eq_refl))))). Qed.
Print Assumptions C43_directory_refuted.

(** ** C56: a loaded analyser cannot be saved: its integers are NumPy scalars. The attempt leaves a
    file behind (or there was one already). *)
Theorem C56_save_after_load_refuted : forall G Seed RS (X : Ext R G Seed RS) to_d of_d, dist_dicts to_d of_d ->
  forall u a s filename filename2, u_sub_sample_dt u = 1 -> reachable X u (an_diff a) ->
  an_disp_3d (an_data a) <> [] -> b_euclidian (an_diff a) <> [] -> s (hdf_name filename) = None ->
  exists s1, analyzer_save to_d s filename a = (s1, Ok tt) /\ exists n, forall fuel, (n <= fuel)%nat ->
    (exists a', analyzer_load of_d fuel s1 filename = Ok a') /\
    exists s2, load_and_save to_d of_d fuel s1 filename filename2 = (s2, Raise ValueError) /\ s2 (hdf_name filename2) <> None.
Proof. exact @C56_proof. Qed.
Print Assumptions C56_save_after_load_refuted.
Example C56_example : forall G Seed RS (X : Ext R G Seed RS) (g : G), dist_dicts demo_to_d demo_of_d
  /\ exists a, reachable X (demo_boot 1 "xyz") (an_diff a) /\ an_disp_3d (an_data a) <> [] /\ b_euclidian (an_diff a) <> [] /\ b_n (an_diff a) = [2;4]%R.
Proof. intros G Seed RS X g. exact (conj demo_dist_dicts (demo_analyzer X g)). Qed.
