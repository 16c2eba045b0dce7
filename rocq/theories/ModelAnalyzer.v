(** * ModelAnalyzer: kinisi/analyzer.py, diffusion_analyzer.py, jump_diffusion_analyzer.py,
    conductivity_analyzer.py, and Bootstrap.to_dict / from_dict of kinisi/diffusion.py

    Line numbers refer to /repo/kinisi/analyzer.py unless another file is named. *)
From Verif Require Import Base ModelParser ModelDiffusion ModelHdf.
Open Scope Z_scope.
Open Scope string_scope.

(** The trajectory argument: one trajectory or several. *)
Inductive trajectory (T : Type) := TSingle (t : T) | TMulti (l : list T).
Arguments TSingle {T}. Arguments TMulti {T}.

(** _flatten_list (lines 351-359) *)
Definition flatten_list {T} (l : list (list T)) : list T := concat l.

(** NumPy arrays with one, two or three axes. *)
Inductive nd (A : Type) := N1 (l : list A) | N2 (m : Mat A) | N3 (a : Arr A).
Arguments N1 {A}. Arguments N2 {A}. Arguments N3 {A}.

Section Analyzer.
  Context {A : Type} {NA : Num A}.
  Local Open Scope num_scope.

  (** ** Analyzer (lines 27-31) *)
  Record AnalyzerData := mkAnalyzer {
    an_delta_t : list A; an_disp_3d : list (Arr A); an_n_o : list A; an_volume : option A }.

  (** ** _stack_trajectories (lines 273-290) *)

  (** NumPy assignment of [src] into a slot of shape (n, obs, 3): every axis of [src] must have the
      slot's length or length one. *)
  Definition fit_axis {T} (n : nat) (l : list T) : Res (list T) :=
    if Nat.eqb (length l) n then Ok l
    else match l with [x] => Ok (repeat x n) | _ => Raise ValueError end.
  Definition assign_block (n obs : nat) (src : Arr A) : Res (list (list (V3 A))) :=
    let! rows := fit_axis n (a_rows src) in
    mapM (fit_axis obs) rows.
  Definition stack_one (u : list (Parsed A)) (i : nat) (d0 : Arr A) : Res (Arr A) :=
    let n := length (a_rows d0) in
    let! blocks := mapM (fun p => let! d := py_index (p_disp_3d p) (Z.of_nat i) in
                                  assign_block n (a_obs d0) d) u in
    Ok (mkArr (a_obs d0) (concat blocks)).
  Definition stack_trajectories (u : list (Parsed A)) : Res (list (Arr A)) :=
    match u with
    | [] => Raise IndexError
    | p0 :: _ => mapM (fun id => stack_one u (fst id) (snd id))
                      (combine (seq 0 (length (p_disp_3d p0))) (p_disp_3d p0))
    end.

  (** `n_o += i._n_o` (lines 113-115): in-place addition. *)
  Definition add_inplace (acc x : list A) : Res (list A) :=
    let! x' := fit_axis (length acc) x in Ok (zip_with nadd acc x').
  Fixpoint sum_n_o (acc : list A) (u : list (Parsed A)) : Res (list A) :=
    match u with
    | [] => Ok acc
    | p :: t => let! acc' := add_inplace acc (p_n_o p) in sum_n_o acc' t
    end.

  Definition of_parsed (p : Parsed A) : AnalyzerData :=
    mkAnalyzer (p_delta_t p) (p_disp_3d p) (p_n_o p) (p_volume p).

  (** Lines 111-116: dtype 'identical'. *)
  Definition identical {T} (parse : T -> Res (Parsed A)) (ts : list T) : Res AnalyzerData :=
    let! u := mapM parse ts in
    match u with
    | [] => Raise IndexError
    | p0 :: _ =>
        let! n_o := sum_n_o (repeat n0 (length (p_n_o p0))) u in
        let! disp := stack_trajectories u in
        Ok (mkAnalyzer (p_delta_t p0) disp n_o (p_volume p0))
    end.

  (** _from_pymatgen (86-122), _from_ase (124-159), _from_Xdatcar (161-197), _from_file (199-234):
      the four bodies are the same up to the parser and the way frames are read. A trajectory that
      does not fit the dtype fails inside the parser with an error that depends on the library;
      AttributeError stands for it. *)
  Definition from_frames {Fr} (parse : list Fr -> Res (Parsed A)) (t : trajectory (list Fr))
      (dtype : option string) : Res AnalyzerData :=
    match dtype with
    | None => match t with
              | TSingle fs => let! p := parse fs in Ok (of_parsed p)
              | TMulti _ => Raise AttributeError
              end
    | Some d =>
        if (d =? "identical")%string then
          match t with TMulti ts => identical parse ts | TSingle _ => Raise AttributeError end
        else if (d =? "consecutive")%string then
          match t with
          | TMulti ts => let! p := parse (flatten_list ts) in Ok (of_parsed p)
          | TSingle _ => Raise AttributeError
          end
        else Raise ValueError
    end.

  (** _from_universe (236-271): 'consecutive' is not supported. *)
  Definition from_universe {U} (parse : U -> Res (Parsed A)) (t : trajectory U) (dtype : option string)
    : Res AnalyzerData :=
    match dtype with
    | None => match t with
              | TSingle u => let! p := parse u in Ok (of_parsed p)
              | TMulti _ => Raise AttributeError
              end
    | Some d =>
        if (d =? "identical")%string then
          match t with TMulti ts => identical parse ts | TSingle _ => Raise AttributeError end
        else Raise ValueError
    end.

  (** ** The analysers: Analyzer plus `_diff` *)
  Section Uses.
    Context {G Seed RS : Type} (X : Ext A G Seed RS).

    Record Analyzer := mkAn { an_data : AnalyzerData; an_diff : Boot A }.

    (** DiffusionAnalyzer.from_* (diffusion_analyzer.py 60-202): parse, then MSDBootstrap. The six
        constructors differ only in the parser; likewise for the next two. *)
    Definition diffusion_analyzer (d : AnalyzerData) (u : BootParams A) (g : G) : Res (Analyzer * G) :=
      let! '(b, g') := msd_bootstrap X u (an_delta_t d) (an_disp_3d d) (an_n_o d) g in
      Ok (mkAn d b, g').
    (** JumpDiffusionAnalyzer.from_* (jump_diffusion_analyzer.py 58-206) *)
    Definition jump_diffusion_analyzer (d : AnalyzerData) (u : BootParams A) (g : G) : Res (Analyzer * G) :=
      let! '(b, g') := mstd_bootstrap X u (an_delta_t d) (an_disp_3d d) (an_n_o d) g in
      Ok (mkAn d b, g').
    (** ConductivityAnalyzer.from_* (conductivity_analyzer.py 61-222) *)
    Definition conductivity_analyzer (d : AnalyzerData) (q : charge A) (u : BootParams A) (g : G)
      : Res (Analyzer * G) :=
      let! '(b, g') := mscd_bootstrap X u (an_delta_t d) (an_disp_3d d) q (an_n_o d) g in
      Ok (mkAn d b, g').

    (** DiffusionAnalyzer.diffusion (diffusion_analyzer.py 204-216), JumpDiffusionAnalyzer.jump_diffusion
        (jump_diffusion_analyzer.py 208-220), ConductivityAnalyzer.conductivity
        (conductivity_analyzer.py 224-237; the stored cell volume is passed on, None is a
        TypeError in `volume * 1e-24`). *)
    Definition an_diffusion (a : Analyzer) (p : GLSParams A RS) (g : G) : Analyzer * G * Res unit :=
      let '(b, g', r) := diffusion X (an_diff a) p g in (mkAn (an_data a) b, g', r).
    Definition an_jump_diffusion (a : Analyzer) (p : GLSParams A RS) (g : G) : Analyzer * G * Res unit :=
      let '(b, g', r) := jump_diffusion X (an_diff a) p g in (mkAn (an_data a) b, g', r).
    Definition an_conductivity (k : Consts A) (a : Analyzer) (p : GLSParams A RS) (temperature : A) (g : G)
      : Analyzer * G * Res unit :=
      match an_volume (an_data a) with
      | None => let '(b, g', r) := bootstrap_GLS X (an_diff a) p g in
                (mkAn (an_data a) b, g', match r with Ok _ => Raise TypeError | Raise e => Raise e end)
      | Some vol => let '(b, g', r) := conductivity X k (an_diff a) p temperature vol g in
                    (mkAn (an_data a) b, g', r)
      end.

    (** distribution (lines 306-312): one row per dt. *)
    Definition distribution (a : Analyzer) : Res (list (list A)) :=
      let! gr := samples_of (b_gradient (an_diff a)) in
      let! ic := samples_of (b_intercept (an_diff a)) in
      mapM (fun d => broadcast2 nadd (map (fun g => g * d) gr) ic) (b_dt (an_diff a)).

    (** flatchain (diffusion_analyzer.py 240-245; jump_diffusion_analyzer.py 243-248 with D_J;
        conductivity_analyzer.py 261-266 with sigma): [which] selects the coefficient. `.samples`
        of None raises AttributeError. Samples of different lengths (which cannot be stacked)
        raise ValueError. *)
    Definition an_flatchain (which : Boot A -> option (list A)) (a : Analyzer) : Res (list (A * A)) :=
      let! d := samples_of (which (an_diff a)) in
      let! ic := samples_of (b_intercept (an_diff a)) in
      let! _ := guard (Nat.eqb (length d) (length ic)) ValueError in
      Ok (combine d ic).

    (** ngp_max (lines 329-334): `self.dt[self._diff.ngp.argmax()]`; argmax of an empty array is a
        ValueError and returns the first maximum. *)
    Fixpoint argmax_from (best : A) (ibest i : nat) (l : list A) : nat :=
      match l with
      | [] => ibest
      | x :: t => if best <? x then argmax_from x i (S i) t else argmax_from best ibest (S i) t
      end.
    Definition argmax (l : list A) : Res nat :=
      match l with [] => Raise ValueError | x :: t => Ok (argmax_from x 0 1 t) end.
    Definition ngp_max (a : Analyzer) : Res A :=
      let! i := argmax (b_ngp (an_diff a)) in py_index (b_dt (an_diff a)) (Z.of_nat i).
  End Uses.

  (** ** Bootstrap.to_dict (diffusion.py 89-133) and from_dict (135-177)

      [dist_to_dict] / [dist_of_dict] are uravu's Distribution.to_dict / from_dict. *)
  Section Dicts.
    Notation val := (pyval (nd A) A).
    Context (dist_to_dict : list A -> list (string * val))
            (dist_of_dict : list (string * val) -> Res (list A)).

    Definition v1 (l : list A) : val := VArr (N1 l).
    Definition v_opt {X} (f : X -> val) (o : option X) : val :=
      match o with Some x => f x | None => VNone end.
    Definition v_dist (l : list A) : val := VDict (dist_to_dict l).
    Definition v_dim (d : pystr) : val := match d with PyStr s => VStr s | PyBytes s => VBytes s end.

    Definition boot_to_dict (b : Boot A) : list (string * val) :=
      [ ("displacements", VList (map (fun a => VArr (N3 a)) (b_displacements b)));
        ("delta_t", v1 (b_delta_t b)); ("n_o", v1 (b_n_o b));
        ("max_obs", VInt (Z.of_nat (b_max_obs b)));
        ("dt", v1 (b_dt b)); ("n", v1 (b_n b)); ("s", v1 (b_s b)); ("v", v1 (b_v b));
        ("n_bootstrap", v1 (b_n_bootstrap b)); ("s_bootstrap", v1 (b_s_bootstrap b));
        ("v_bootstrap", v1 (b_v_bootstrap b));
        ("sub_sample_dt", VInt (b_sub_sample_dt b)); ("dimension", v_dim (b_dimension b));
        ("ngp", v1 (b_ngp b));
        ("covariance_matrix", v_opt (fun m => VArr (N2 m)) (b_covariance b));
        ("distributions", match b_distributions b with
                          | [] => VNone | ds => VList (map v_dist ds) end);
        ("diffusion_coefficient", v_opt v_dist (b_D b));
        ("jump_diffusion_coefficient", v_opt v_dist (b_DJ b));
        ("sigma", v_opt v_dist (b_sigma b));
        ("intercept", v_opt v_dist (b_intercept b));
        ("gradient", v_opt v_dist (b_gradient b));
        ("start_dt", v_opt (fun x => VFloat x) (b_start_dt b));
        ("model", v_opt (fun x => VBool x) (b_model b));
        ("cond_max", v_opt (fun x => VFloat x) (b_cond_max b));
        ("euclidian_displacements", VList (map v_dist (b_euclidian b)));
        ("flatchain", v_opt (fun m => VArr (N2 m)) (b_flatchain b)) ].

    Fixpoint dget (k : string) (d : list (string * val)) : Res val :=
      match d with
      | [] => Raise KeyError
      | (k', v) :: t => if String.eqb k k' then Ok v else dget k t
      end.
    (** Reading values of the expected kind; another kind fails somewhere with a TypeError (the
        exact exception is not modelled). *)
    Definition as1 (v : val) : Res (list A) := match v with VArr (N1 l) => Ok l | _ => Raise TypeError end.
    Definition as3 (v : val) : Res (Arr A) := match v with VArr (N3 a) => Ok a | _ => Raise TypeError end.
    Definition as_list (v : val) : Res (list val) := match v with VList l => Ok l | _ => Raise TypeError end.
    Definition as_int (v : val) : Res Z :=
      match v with VInt z => Ok z | VNpInt z => Ok z | _ => Raise TypeError end.
    Definition as_dim (v : val) : Res pystr :=
      match v with VStr s => Ok (PyStr s) | VBytes s => Ok (PyBytes s) | _ => Raise TypeError end.
    Definition as_dist (v : val) : Res (list A) :=
      match v with VDict d => dist_of_dict d | _ => Raise TypeError end.
    Definition as_opt {X} (f : val -> Res X) (v : val) : Res (option X) :=
      match v with VNone => Ok None | _ => let! x := f v in Ok (Some x) end.
    Definition as2 (v : val) : Res (Mat A) := match v with VArr (N2 m) => Ok m | _ => Raise TypeError end.
    Definition as_float (v : val) : Res A := match v with VFloat x => Ok x | _ => Raise TypeError end.
    Definition as_bool (v : val) : Res bool :=
      match v with VBool x => Ok x | VNpBool x => Ok x | _ => Raise TypeError end.
    Definition field {X} (d : list (string * val)) (k : string) (f : val -> Res X) : Res X :=
      let! v := dget k d in f v.

    Definition boot_from_dict (d : list (string * val)) : Res (Boot A) :=
      let! delta_t := field d "delta_t" as1 in
      let! disps := field d "displacements" (fun v => let! l := as_list v in mapM as3 l) in
      let! n_o := field d "n_o" as1 in
      let! sub := field d "sub_sample_dt" as_int in
      let! dim := field d "dimension" as_dim in
      let! b := bootstrap_init delta_t disps n_o sub dim in          (* lines 144-148 *)
      let! max_obs := field d "max_obs" as_int in
      let! eucl := field d "euclidian_displacements" (fun v => let! l := as_list v in mapM as_dist l) in
      let! dt := field d "dt" as1 in
      let! n := field d "n" as1 in
      let! s := field d "s" as1 in
      let! v := field d "v" as1 in
      let! nb := field d "n_bootstrap" as1 in
      let! sb := field d "s_bootstrap" as1 in
      let! vb := field d "v_bootstrap" as1 in
      let! ngp := field d "ngp" as1 in
      let! distr := field d "distributions"
                          (as_opt (fun v => let! l := as_list v in mapM as_dist l)) in
      let! D := field d "diffusion_coefficient" (as_opt as_dist) in
      let! DJ := field d "jump_diffusion_coefficient" (as_opt as_dist) in
      let! sigma := field d "sigma" (as_opt as_dist) in
      let! icpt := field d "intercept" (as_opt as_dist) in
      let! grad := field d "gradient" (as_opt as_dist) in
      let! flat := field d "flatchain" (as_opt as2) in
      let! cov := field d "covariance_matrix" (as_opt as2) in
      let! start := field d "start_dt" (as_opt as_float) in
      let! model := field d "model" (as_opt as_bool) in
      let! cond := field d "cond_max" (as_opt as_float) in
      Ok (mkBoot (b_displacements b) (b_delta_t b) (Z.to_nat max_obs)
            (match distr with Some l => l | None => b_distributions b end)
            dt n s v nb sb vb n_o ngp (b_sub_sample_dt b) (b_dimension b) eucl D DJ sigma icpt grad
            flat cov (b_slice b) start (b_dims b) model cond).

    (** Analyzer.to_dict (lines 69-73) and {Diffusion,JumpDiffusion,Conductivity}Analyzer.to_dict
        (diffusion_analyzer.py 38-44, jump_diffusion_analyzer.py 38-44,
        conductivity_analyzer.py 40-46). *)
    Definition analyzer_to_dict (a : Analyzer) : list (string * val) :=
      [ ("delta_t", v1 (an_delta_t (an_data a)));
        ("disp_3d", VList (map (fun x => VArr (N3 x)) (an_disp_3d (an_data a))));
        ("n_o", v1 (an_n_o (an_data a)));
        ("volume", v_opt (fun x => VFloat x) (an_volume (an_data a)));
        ("diff", VDict (boot_to_dict (an_diff a))) ].
    (** from_dict (diffusion_analyzer.py 46-57 and its two copies). *)
    Definition analyzer_from_dict (d : list (string * val)) : Res Analyzer :=
      let! delta_t := field d "delta_t" as1 in
      let! disps := field d "disp_3d" (fun v => let! l := as_list v in mapM as3 l) in
      let! n_o := field d "n_o" as1 in
      let! vol := field d "volume" (as_opt as_float) in
      let! diff := dget "diff" d in
      let! b := match diff with VDict dd => boot_from_dict dd | _ => Raise TypeError end in
      Ok (mkAn (mkAnalyzer delta_t disps n_o vol) b).

    (** save and load of an analyser (lines 33-67). *)
    Definition analyzer_save (s : fs) (filename : string) (a : Analyzer) : fs * Res unit :=
      save s filename (analyzer_to_dict a).
    Definition analyzer_load (fuel : nat) (s : fs) (filename : string) : Res Analyzer :=
      let! d := load fuel s filename in analyzer_from_dict d.

    (** `to_dict` of an object made by `from_dict` from the dictionary [d]: the attributes _max_obs,
        _sub_sample_dt and _model hold the very objects found in [d] (diffusion.py 144-149 and 175),
        so their Python types are those of [d]. All other entries are as in [boot_to_dict]. *)
    Definition boot_to_dict_again (d : list (string * val)) (b : Boot A) : Res (list (string * val)) :=
      let! mo := dget "max_obs" d in
      let! sub := dget "sub_sample_dt" d in
      let! model := dget "model" d in
      Ok (map (fun kv => let k := fst kv in
                (k, if String.eqb k "max_obs" then mo else if String.eqb k "sub_sample_dt" then sub
                    else if String.eqb k "model" then model else snd kv)) (boot_to_dict b)).
    Definition analyzer_to_dict_again (d : list (string * val)) (a : Analyzer) : Res (list (string * val)) :=
      let! diff := dget "diff" d in
      let! bd := match diff with VDict dd => boot_to_dict_again dd (an_diff a) | _ => Raise TypeError end in
      Ok (map (fun kv => let k := fst kv in (k, if String.eqb k "diff" then VDict bd else snd kv))
              (analyzer_to_dict a)).
    (** Loading [filename] and saving the loaded object under [filename2]. *)
    Definition load_and_save (fuel : nat) (s : fs) (filename filename2 : string) : fs * Res unit :=
      match (let! d := load fuel s filename in
             let! a := analyzer_from_dict d in
             analyzer_to_dict_again d a) with
      | Ok d' => save s filename2 d'
      | Raise e => (s, Raise e)
      end.
  End Dicts.
End Analyzer.

Arguments AnalyzerData A : clear implicits.
Arguments Analyzer A : clear implicits.
