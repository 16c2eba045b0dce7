(** * ModelDiffusion: kinisi/diffusion.py

    All line numbers refer to /repo/kinisi/diffusion.py. Third-party numerical routines (scipy,
    sklearn, emcee, statsmodels, pyblock, NumPy's eig) are the fields of the record [Ext]; the
    theorems quantify over them. Progress bars are not modelled. *)
From Verif Require Import Base.
From Coq Require Import Ascii.
Open Scope Z_scope.
Open Scope string_scope.

(** ** DIMENSIONALITY (lines 24-39) *)

(** A Python str or bytes value. *)
Inductive pystr := PyStr (s : string) | PyBytes (s : string).

(** `str.lower` on ASCII. (Non-ASCII letters are outside the model; none of them lower-cases to
    x, y or z.) *)
Definition lower_char (c : ascii) : ascii :=
  let n := nat_of_ascii c in
  if (Nat.leb 65 n && Nat.leb n 90)%bool then ascii_of_nat (n + 32) else c.
Fixpoint lower (s : string) : string :=
  match s with EmptyString => EmptyString | String c t => String (lower_char c) (lower t) end.

(** The `np.s_` values used in the table. *)
Inductive axis_slice := SIx (i : Z) | STo (e : Z) | SFrom (s : Z) | SStep (k : Z) | SAll.
(** Indexing an axis with such a value, followed by the reshape of lines 572-573 which turns the
    dropped axis of an integer index into an axis of length one. *)
Definition apply_slice {T} (s : axis_slice) (l : list T) : Res (list T) :=
  match s with
  | SIx i => let! x := py_index l i in Ok [x]
  | STo e => Ok (py_to e l)
  | SFrom b => Ok (py_from b l)
  | SStep k => py_stride k l
  | SAll => Ok l
  end.

Definition pystr_eqb (a b : pystr) : bool :=
  match a, b with
  | PyStr x, PyStr y => String.eqb x y
  | PyBytes x, PyBytes y => String.eqb x y
  | _, _ => false
  end.
(** Lines 24-39. *)
Definition DIMENSIONALITY : list (pystr * axis_slice) :=
  [ (PyStr "x", SIx 0); (PyStr "y", SIx 1); (PyStr "z", SIx 2);
    (PyStr "xy", STo 2); (PyStr "xz", SStep 2); (PyStr "yz", SFrom 1); (PyStr "xyz", SAll);
    (PyBytes "x", SIx 0); (PyBytes "y", SIx 1); (PyBytes "z", SIx 2);
    (PyBytes "xy", STo 2); (PyBytes "xz", SStep 2); (PyBytes "yz", SFrom 1); (PyBytes "xyz", SAll) ].
Fixpoint dict_get {V} (k : pystr) (d : list (pystr * V)) : Res V :=
  match d with
  | [] => Raise KeyError
  | (k', v) :: t => if pystr_eqb k k' then Ok v else dict_get k t
  end.
Definition pystr_lower (d : pystr) : pystr :=
  match d with PyStr s => PyStr (lower s) | PyBytes s => PyBytes (lower s) end.
Definition pystr_len (d : pystr) : nat :=
  match d with PyStr s => String.length s | PyBytes s => String.length s end.

(** A matrix as a list of rows. *)
Definition Mat (A : Type) := list (list A).

(** ** The libraries *)
Record Ext (A G Seed RS : Type) := mkExt {
  x_sqrt : A -> A;                                        (* np.sqrt *)
  x_randints : G -> nat -> nat -> list nat * G;           (* [size] random indices below [n] *)
  x_normaltest : list A -> A;                             (* scipy.stats.normaltest(v)[1] *)
  x_reblock : list A -> A * A;                            (* pyblock: mean and std_err, 585-592 *)
  x_seed_of : RS -> Seed;                                 (* random_state.get_state()[1][1] *)
  x_seed : Seed -> G;                                     (* np.random.seed *)
  x_curve_fit : list A -> list A -> list A -> Res A;      (* scipy curve_fit (dt, v, n_o) *)
  x_eig : Mat A -> Res (list A * Mat A);                  (* np.linalg.eig *)
  x_cov_nearest : Mat A -> Res (Mat A);                   (* statsmodels cov_nearest *)
  x_logdet : Mat A -> Res A;                              (* np.linalg.slogdet(...)[1] *)
  x_log2pi : A;                                           (* np.log(2*np.pi) *)
  x_pinvh : Mat A -> Res (Mat A);                         (* scipy.linalg.pinvh *)
  x_linregress : list A -> list A -> Res A;               (* scipy linregress slope *)
  x_minimize : (list A -> Res (option A)) -> list A -> Res (list A);  (* scipy minimize(...).x *)
  x_randn : G -> nat -> nat -> Mat A * G;                 (* np.random.randn(rows, cols) *)
  x_independent : Mat A -> bool;                          (* emcee walkers_independent *)
  x_propose : G -> Mat A -> list (option (list A * A * A)) * G;  (* emcee move: see [half_step] *)
  x_mvn : G -> list A -> Mat A -> nat -> Mat A * G        (* multivariate_normal(...).rvs(n) *)
}.
Arguments mkExt {A G Seed RS}.
Arguments x_sqrt {A G Seed RS}. Arguments x_randints {A G Seed RS}. 
Arguments x_normaltest {A G Seed RS}.
Arguments x_reblock {A G Seed RS}. Arguments x_seed_of {A G Seed RS}. Arguments x_seed {A G Seed RS}.
Arguments x_curve_fit {A G Seed RS}. Arguments x_eig {A G Seed RS}.
Arguments x_cov_nearest {A G Seed RS}. Arguments x_logdet {A G Seed RS}.
Arguments x_log2pi {A G Seed RS}. Arguments x_pinvh {A G Seed RS}.
Arguments x_linregress {A G Seed RS}. Arguments x_minimize {A G Seed RS}.
Arguments x_randn {A G Seed RS}. Arguments x_independent {A G Seed RS}. Arguments x_propose {A G Seed RS}. Arguments x_mvn {A G Seed RS}.

Section Diffusion.
  Context {A : Type} {NA : Num A} {G Seed RS : Type} (X : Ext A G Seed RS).
  Local Open Scope num_scope.

  (** ** Bootstrap: state (lines 54-87)

      A uravu Distribution is represented by its samples. The private attributes [_popt],
      [_model_v] and [_npd_covariance_matrix] (lines 419-424), which nothing reads back, are
      omitted, as is [_iterator]. *)
  Record Boot := mkBoot {
    b_displacements : list (Arr A); b_delta_t : list A; b_max_obs : nat;
    b_distributions : list (list A); b_dt : list A; b_n : list A; b_s : list A; b_v : list A;
    b_n_bootstrap : list A; b_s_bootstrap : list A; b_v_bootstrap : list A;
    b_n_o : list A; b_ngp : list A; b_sub_sample_dt : Z; b_dimension : pystr;
    b_euclidian : list (list A);
    b_D : option (list A); b_DJ : option (list A); b_sigma : option (list A);
    b_intercept : option (list A); b_gradient : option (list A); b_flatchain : option (Mat A);
    b_covariance : option (Mat A); b_slice : axis_slice; b_start_dt : option A; b_dims : nat;
    b_model : option bool; b_cond_max : option A }.

  (** Bootstrap.__init__ (lines 54-87). *)
  Definition bootstrap_init (delta_t : list A) (disp_3d : list (Arr A)) (n_o : list A)
      (sub_sample_dt : Z) (dimension : pystr) : Res Boot :=
    let! displacements := py_stride sub_sample_dt disp_3d in
    let! dts := py_stride sub_sample_dt delta_t in
    let! d0 := py_index displacements 0 in
    let! sl := dict_get (pystr_lower dimension) DIMENSIONALITY in
    Ok (mkBoot displacements dts (a_obs d0) [] [] [] [] [] [] [] [] n_o [] sub_sample_dt dimension
               [] None None None None None None None sl None (pystr_len (pystr_lower dimension))
               None None).

  (** ** Statistics *)

  (** Lines 572-574, 656-658, 748-750: squared length of every displacement along the chosen axes,
      atom-major; [components] lists the coordinates of a displacement. *)
  Definition components (v : V3 A) : list A := [vx v; vy v; vz v].
  Definition sq_norm (l : list A) : A := nsum (map nsq l).
  Definition slice_row (sl : axis_slice) (row : list (V3 A)) : Res (list (list A)) :=
    mapM (fun v => apply_slice sl (components v)) row.
  Definition disp_slice (sl : axis_slice) (d : Arr A) : Res (list (list (list A))) :=
    mapM (slice_row sl) (a_rows d).
  Definition d_squared (ds : list (list (list A))) : list A := concat (map (map sq_norm) ds).

  (** `np.sum(a, axis=0)` of an array [atom, observation, axis]. *)
  Definition vec_add (a b : list A) : list A := zip_with nadd a b.
  Definition sum_atoms (obs dims : nat) (ds : list (list (list A))) : list (list A) :=
    map (fun t => map (fun k => nsum (map (fun row => nth k (nth t row []) n0) ds)) (seq 0 dims))
        (seq 0 obs).
  (** Line 659: squared length of the collective displacement at every observation. *)
  Definition coll_motion (obs dims : nat) (ds : list (list (list A))) : list A :=
    map sq_norm (sum_atoms obs dims ds).

  (** The `ionic_charge` argument: a scalar or an array. *)
  Inductive charge := QScalar (q : A) | QArray (l : list A).
  (** Lines 739-742 *)
  Definition charge_array (q : charge) (natoms : nat) : list A :=
    match q with QScalar c => repeat (n1 * c) natoms | QArray l => l end.
  (** Line 751: `np.sum(np.sum((ionic_charge * disp.T).T, axis=0)**2, axis=-1)`; all three axes of
      the displacement are used; the charges broadcast against the atom axis. *)
  Definition sq_chg_motion (q : list A) (d : Arr A) : Res (list A) :=
    let! rows := broadcast2 (fun c row => map (fun v => map (fun x => c * x) (components v)) row)
                            q (a_rows d) in
    Ok (coll_motion (a_obs d) 3 rows).

  (** `np.var(l, ddof=1)` *)
  Definition nvar (l : list A) : A :=
    let m := nmean l in nsum (map (fun x => nsq (x - m)) l) / nofZ (Z.of_nat (length l) - 1).

  (** ngp_calculation (lines 291-303). *)
  Definition ngp_calculation (d2 : list A) : A :=
    let top := nmean (map (fun d => d * d) d2) * nofZ 3 in
    let bottom := nsq (nmean d2) * nofZ 5 in
    top / bottom - n1.

  (** ** Resampling *)

  (** _bootstrap (lines 783-801): sklearn's resample draws [int(n_samples)] elements with
      replacement; it rejects n_samples < 1. *)
  Definition resample (g : G) (l : list A) (n : Z) : Res (list A * G) :=
    if (n <? 1)%Z then Raise ValueError
    else let '(ix, g') := x_randints X g (length l) (Z.to_nat n) in
         let! s := mapM (fun i => opt_res IndexError (nth_error l i)) ix in Ok (s, g').
  Fixpoint bootstrap_n (g : G) (l : list A) (n_samples : A) (n_resamples : nat) : Res (list A * G) :=
    match n_resamples with
    | O => Ok ([], g)
    | S k => let! n := py_int n_samples in
             let! '(s, g') := resample g l n in
             let! '(rest, g'') := bootstrap_n g' l n_samples k in
             Ok (nmean s :: rest, g'')
    end.

  (** sample_until_normal (lines 258-289). The loop runs on [fuel]; [None] would mean that the
      fuel ran out, which [sample_until_normal] rules out by starting with enough of it. The
      boolean is the "not yet normal" warning of lines 287-288. *)
  Fixpoint resample_loop (fuel : nat) (g : G) (l : list A) (n_samples : A) (max_resamples : Z)
      (alpha : A) (values : list A) : option (Res (list A * bool * G)) :=
    if (x_normaltest X values <? alpha) && (Z.of_nat (length values) <? max_resamples)%Z then
      match fuel with
      | O => None
      | S f => match bootstrap_n g l n_samples 100 with
               | Raise e => Some (Raise e)
               | Ok (more, g') =>
                   resample_loop f g' l n_samples max_resamples alpha (values ++ more)%list
               end
      end
    else Some (Ok (values, (max_resamples <=? Z.of_nat (length values))%Z, g)).
  Definition sample_until_normal (g : G) (l : list A) (n_samples : A) (n_resamples max_resamples : Z)
      (alpha : A) : option (Res (list A * bool * G)) :=
    match bootstrap_n g l n_samples (Z.to_nat n_resamples) with
    | Raise e => Some (Raise e)
    | Ok (values, g') => resample_loop (Z.to_nat max_resamples) g' l n_samples max_resamples alpha values
    end.

  (** ** MSDBootstrap / MSTDBootstrap / MSCDBootstrap *)

  Record BootParams := mkBootParams {
    u_sub_sample_dt : Z; u_bootstrap : bool; u_block : bool; u_n_resamples : Z;
    u_max_resamples : Z; u_dimension : pystr; u_alpha : A }.

  (** Appending the results of one interval to the object (np.append, list.append). *)
  Definition push_results (b : Boot) (eucl : list A) (boot : option (list A * A * A * A))
      (n v s ngp dt : A) : Boot :=
    mkBoot (b_displacements b) (b_delta_t b) (b_max_obs b)
      (b_distributions b ++ match boot with Some (d, _, _, _) => [d] | None => [] end)
      (b_dt b ++ [dt]) (b_n b ++ [n]) (b_s b ++ [s]) (b_v b ++ [v])
      (b_n_bootstrap b ++ match boot with Some (_, m, _, _) => [m] | None => [] end)
      (b_s_bootstrap b ++ match boot with Some (_, _, _, sd) => [sd] | None => [] end)
      (b_v_bootstrap b ++ match boot with Some (_, _, vv, _) => [vv] | None => [] end)
      (b_n_o b) (b_ngp b ++ [ngp]) (b_sub_sample_dt b) (b_dimension b)
      (b_euclidian b ++ [eucl])
      (b_D b) (b_DJ b) (b_sigma b) (b_intercept b) (b_gradient b) (b_flatchain b)
      (b_covariance b) (b_slice b) (b_start_dt b) (b_dims b) (b_model b) (b_cond_max b).

  (** One pass of the loop body for interval [i]: MSD lines 571-601, MSTD 655-687, MSCD 747-779.
      The three bodies are the same up to [quantity] (the array whose mean is reported: d_squared,
      coll_motion, sq_chg_motion) and [n_samples] (n_o[i], or n_o[i] divided by the number of
      atoms). A size of at most one is the `continue` branch. [self._v[i]] (lines 595, 599, 681, 685, 773, 777) is
      looked up by the loop counter. The random generator is threaded through. *)
  Definition boot_step (u : BootParams) (quantity : Arr A -> list (list (list A)) -> Res (list A))
      (n_samples : A -> nat -> A) (n_o : list A) (i : nat) (disp : Arr A) (b : Boot) (g : G)
    : Res (Boot * G) :=
    let! ds := disp_slice (b_slice b) disp in
    let d2 := d_squared ds in
    let! q := quantity disp ds in
    if (length q <=? 1)%nat then Ok (b, g)
    else
      let eucl := map (x_sqrt X) d2 in
      let! '(boot, g') :=
        (if u_bootstrap u then
           let! no := py_index n_o (Z.of_nat i) in
           match sample_until_normal g q (n_samples no (length (a_rows disp))) (u_n_resamples u)
                                     (u_max_resamples u) (u_alpha u) with
           | None => Raise RuntimeError   (* unreachable, see [resample_loop] *)
           | Some (Raise e) => Raise e
           | Some (Ok (distro, _, g')) =>
               Ok (Some (distro, nmean distro, nvar distro, x_sqrt X (nvar distro)), g')
           end
         else Ok (None, g)) in
      let! '(n, v) :=
        (if u_block u then let '(mean, std_err) := x_reblock X q in Ok (mean, nsq std_err)
         else let! no := py_index n_o (Z.of_nat i) in
              Ok (nmean q, nvar q / n_samples no (length (a_rows disp)))) in
      let! vi := py_index (b_v b ++ [v])%list (Z.of_nat i) in
      let ngp := ngp_calculation d2 in
      let! dt := py_index (b_delta_t b) (Z.of_nat i) in
      Ok (push_results b eucl boot n v (x_sqrt X vi) ngp dt, g').

  Fixpoint boot_loop (u : BootParams) (quantity : Arr A -> list (list (list A)) -> Res (list A))
      (n_samples : A -> nat -> A) (n_o : list A) (i : nat) (disps : list (Arr A)) (b : Boot) (g : G)
    : Res (Boot * G) :=
    match disps with
    | [] => Ok (b, g)
    | d :: rest =>
        let! '(b', g') := boot_step u quantity n_samples n_o i d b g in
        boot_loop u quantity n_samples n_o (S i) rest b' g'
    end.

  (** Lines 602, 688, 780: `self._n_o = self._n_o[:self._n.size]`. *)
  Definition trim_n_o (b : Boot) : Boot :=
    mkBoot (b_displacements b) (b_delta_t b) (b_max_obs b) (b_distributions b) (b_dt b) (b_n b)
      (b_s b) (b_v b) (b_n_bootstrap b) (b_s_bootstrap b) (b_v_bootstrap b)
      (py_to (Z.of_nat (length (b_n b))) (b_n_o b)) (b_ngp b) (b_sub_sample_dt b) (b_dimension b)
      (b_euclidian b) (b_D b) (b_DJ b) (b_sigma b) (b_intercept b) (b_gradient b) (b_flatchain b)
      (b_covariance b) (b_slice b) (b_start_dt b) (b_dims b) (b_model b) (b_cond_max b).

  (** MSDBootstrap.__init__ (lines 552-602). *)
  Definition msd_bootstrap (u : BootParams) (delta_t : list A) (disp_3d : list (Arr A)) (n_o : list A)
      (g : G) : Res (Boot * G) :=
    let! b := bootstrap_init delta_t disp_3d n_o (u_sub_sample_dt u) (u_dimension u) in
    let! '(b', g') := boot_loop u (fun _ ds => Ok (d_squared ds)) (fun no _ => no) n_o 0
                                (b_displacements b) b g in
    Ok (trim_n_o b', g').

  (** MSTDBootstrap.__init__ (lines 636-688): only the first half of the intervals (line 650). *)
  Definition first_half {T} (l : list T) : list T := firstn (Nat.div (length l) 2) l.
  Definition mstd_bootstrap (u : BootParams) (delta_t : list A) (disp_3d : list (Arr A)) (n_o : list A)
      (g : G) : Res (Boot * G) :=
    let! b := bootstrap_init delta_t disp_3d n_o (u_sub_sample_dt u) (u_dimension u) in
    let! '(b', g') := boot_loop u (fun d ds => Ok (coll_motion (a_obs d) (b_dims b) ds))
                                (fun no n => no / nofnat n) n_o 0
                                (first_half (b_displacements b)) b g in
    Ok (trim_n_o b', g').

  (** MSCDBootstrap.__init__ (lines 723-780). *)
  Definition mscd_bootstrap (u : BootParams) (delta_t : list A) (disp_3d : list (Arr A)) (q : charge)
      (n_o : list A) (g : G) : Res (Boot * G) :=
    let! b := bootstrap_init delta_t disp_3d n_o (u_sub_sample_dt u) (u_dimension u) in
    let! d0 := py_index (b_displacements b) 0 in
    let qs := charge_array q (length (a_rows d0)) in
    let! '(b', g') := boot_loop u (fun d _ => sq_chg_motion qs d)
                                (fun no n => no / nofnat n) n_o 0
                                (first_half (b_displacements b)) b g in
    Ok (trim_n_o b', g').

  (** ** Covariance *)

  (** _populate_covariance_matrix (lines 838-854): loops writing entry (i,j) and (j,i). The matrix
      is a function of two indices while it is being filled. *)
  Definition mat_set (m : nat -> nat -> A) (i j : nat) (v : A) : nat -> nat -> A :=
    fun a b => if Nat.eqb a i && Nat.eqb b j then v else m a b.
  Definition fill_entry (v n : list A) (i : nat) (m : nat -> nat -> A) (j : nat) : nat -> nat -> A :=
    let ratio := nth i n n0 / nth j n n0 in
    let value := ratio * nth i v n0 in
    let m' := mat_set m i j value in
    mat_set m' j i (m' i j).
  Definition fill_row (v n : list A) (m : nat -> nat -> A) (i : nat) : nat -> nat -> A :=
    fold_left (fill_entry v n i) (seq i (length v - i)) m.
  Definition fill (v n : list A) : nat -> nat -> A :=
    fold_left (fill_row v n) (seq 0 (length v)) (fun _ _ => n0).
  Definition mat_of (n : nat) (m : nat -> nat -> A) : Mat A :=
    map (fun i => map (m i) (seq 0 n)) (seq 0 n).
  (** IndexError when there are fewer counts than variances. *)
  Definition populate_covariance_matrix (variances n_samples : list A) : Res (Mat A) :=
    let! _ := guard (length variances <=? length n_samples)%nat IndexError in
    Ok (mat_of (length variances) (fill variances n_samples)).

  (** minimum_eigenvalue_method (lines 870-888). *)
  Definition mget (m : Mat A) (i j : nat) : A := nth j (nth i m []) n0.
  Definition mat_vec_mul (m : Mat A) (x : list A) : list A :=
    map (fun row => nsum (zip_with nmul row x)) m.
  Definition dot (x y : list A) : A := nsum (zip_with nmul x y).
  (** `V @ np.diag(l) @ V.T` *)
  Definition vdiagvt (v : Mat A) (l : list A) : Mat A :=
    map (fun ri => map (fun rj => nsum (map (fun p => (fst (fst p) * snd p) * snd (fst p))
                                            (combine (combine ri rj) l))) v) v.
  Definition recondition_eigenvalues (l : list A) (cond_max : A) : Res (list A) :=
    let! e0 := py_index l 0 in
    let T := e0 / cond_max in
    Ok (map (fun x => if x <? T then T else x) l).
  Definition minimum_eigenvalue_method (m : Mat A) (cond_max : A) : Res (Mat A) :=
    let! '(eigenvalues, eigenvectors) := x_eig X m in
    let! new_eigenvalues := recondition_eigenvalues eigenvalues cond_max in
    Ok (vdiagvt eigenvectors new_eigenvalues).

  (** _model_variance (lines 406-416). *)
  Definition model_variance (n_o dt : list A) (a : A) : list A :=
    zip_with (fun no d => (a / no) * nsq d) n_o dt.

  (** ** The likelihood (lines 354-364) and the straight line (lines 857-867) *)
  Definition straight_line (abscissa : list A) (theta : list A) : Res (list A) :=
    match theta with
    | [g] => Ok (map (fun x => g * x + n0) abscissa)
    | [g; c] => Ok (map (fun x => g * x + c) abscissa)
    | _ => Raise TypeError
    end.
  (** [None] is -inf. *)
  Definition log_likelihood (dt n : list A) (logdet : A) (inv : Mat A) (theta : list A)
    : Res (option A) :=
    let! g := py_index theta 0 in
    if g <? n0 then Ok None
    else let! model := straight_line dt theta in
         let diff := zip_with nsub model n in
         Ok (Some (nopp nhalf * (logdet + dot diff (mat_vec_mul inv diff)))).

  (** ** emcee

      EnsembleSampler with its default move. A walker is its position and log probability. In one
      half step the move proposes new positions for one half of the walkers, given by
      [x_propose]: per walker [None], or the proposal, the log of the proposal factor, and the log
      of the uniform random number. A proposal is accepted iff
      factor + new log prob - old log prob > log(random), evaluated in IEEE arithmetic: never when
      the new log probability is -inf; always when only the old one is. *)
  Definition walker := (list A * option A)%type.
  Definition accepts (w : walker) (lp : option A) (factor logu : A) : bool :=
    match lp, snd w with
    | None, _ => false
    | Some _, None => true
    | Some l, Some l0 => logu <? factor + l - l0
    end.
  Definition move_walker (ll : list A -> Res (option A)) (w : walker)
      (p : option (list A * A * A)) : Res walker :=
    match p with
    | None => Ok w
    | Some (q, factor, logu) =>
        let! lp := ll q in
        Ok (if accepts w lp factor logu then (q, lp) else w)
    end.
  Fixpoint move_walkers (ll : list A -> Res (option A)) (ws : list walker)
      (ps : list (option (list A * A * A))) : Res (list walker) :=
    match ws, ps with
    | w :: wt, p :: pt => let! w' := move_walker ll w p in
                          let! rest := move_walkers ll wt pt in Ok (w' :: rest)
    | _, _ => Ok ws
    end.
  Definition half_step ll (ws : list walker) (g : G) : Res (list walker * G) :=
    let '(ps, g') := x_propose X g (map fst ws) in
    let! ws' := move_walkers ll ws ps in Ok (ws', g').
  (** [chain]: the stored positions, one entry per iteration. *)
  Fixpoint run_chain ll (steps : nat) (ws : list walker) (g : G) : Res (list (Mat A)) :=
    match steps with
    | O => Ok []
    | S k => let! '(ws1, g1) := half_step ll ws g in
             let! '(ws2, g2) := half_step ll ws1 g1 in
             let! rest := run_chain ll k ws2 g2 in
             Ok (map fst ws2 :: rest)
    end.
  (** `run_mcmc(pos, steps)`: ValueError when the start positions are linearly dependent or the
      number of steps is negative; with no steps the `get_chain` that follows raises
      AttributeError; RuntimeError with fewer walkers than twice the number of parameters. The
      sampler copies NumPy's global generator state when it is created and does not advance the
      global one. *)
  Definition run_mcmc ll (pos : Mat A) (ndim : nat) (steps : Z) (g : G) : Res (list (Mat A)) :=
    let! _ := guard (x_independent X pos) ValueError in
    let! lps := mapM ll pos in
    let! _ := guard (0 <=? steps)%Z ValueError in
    let! _ := guard (0 <? steps)%Z AttributeError in
    let! _ := guard (2 * ndim <=? length pos)%nat RuntimeError in
    run_chain ll (Z.to_nat steps) (combine pos lps) g.
  (** `get_chain(flat=True, thin=thin, discard=discard)`: iterations discard+thin-1,
      discard+2*thin-1, ..., flattened. Modelled for thin >= 1, discard >= 0. *)
  Definition get_chain (chain : list (Mat A)) (discard thin : Z) : Res (Mat A) :=
    let! sub := py_stride thin (py_from (discard + thin - 1) chain) in
    Ok (concat sub).

  (** ** bootstrap_GLS (lines 305-395)

      Every assignment to `self` before a failure is kept: the result is the object and the global
      generator after the call together with the outcome. *)
  Record GLSParams := mkGLSParams {
    l_start_dt : A; l_cond_max : A; l_model : bool; l_fit_intercept : bool; l_n_samples : Z;
    l_n_walkers : Z; l_n_burn : Z; l_thin : Z; l_random_state : option RS }.

  Definition set_settings (b : Boot) (p : GLSParams) : Boot :=
    mkBoot (b_displacements b) (b_delta_t b) (b_max_obs b) (b_distributions b) (b_dt b) (b_n b)
      (b_s b) (b_v b) (b_n_bootstrap b) (b_s_bootstrap b) (b_v_bootstrap b) (b_n_o b) (b_ngp b)
      (b_sub_sample_dt b) (b_dimension b) (b_euclidian b) (b_D b) (b_DJ b) (b_sigma b)
      (b_intercept b) (b_gradient b) (b_flatchain b) (b_covariance b) (b_slice b)
      (Some (l_start_dt p)) (b_dims b) (Some (l_model p)) (Some (l_cond_max p)).
  Definition set_covariance (b : Boot) (m : Mat A) : Boot :=
    mkBoot (b_displacements b) (b_delta_t b) (b_max_obs b) (b_distributions b) (b_dt b) (b_n b)
      (b_s b) (b_v b) (b_n_bootstrap b) (b_s_bootstrap b) (b_v_bootstrap b) (b_n_o b) (b_ngp b)
      (b_sub_sample_dt b) (b_dimension b) (b_euclidian b) (b_D b) (b_DJ b) (b_sigma b)
      (b_intercept b) (b_gradient b) (b_flatchain b) (Some m) (b_slice b)
      (b_start_dt b) (b_dims b) (b_model b) (b_cond_max b).
  Definition set_fit (b : Boot) (chain : Mat A) (gradient : list A) (intercept : option (list A)) : Boot :=
    mkBoot (b_displacements b) (b_delta_t b) (b_max_obs b) (b_distributions b) (b_dt b) (b_n b)
      (b_s b) (b_v b) (b_n_bootstrap b) (b_s_bootstrap b) (b_v_bootstrap b) (b_n_o b) (b_ngp b)
      (b_sub_sample_dt b) (b_dimension b) (b_euclidian b) (b_D b) (b_DJ b) (b_sigma b)
      intercept (Some gradient) (Some chain) (b_covariance b) (b_slice b)
      (b_start_dt b) (b_dims b) (b_model b) (b_cond_max b).

  (** Lines 346, 510: `np.argwhere(self._dt >= start)[0][0]`, IndexError when there is none. *)
  Fixpoint find_regime (start : A) (i : nat) (dt : list A) : Res nat :=
    match dt with
    | [] => Raise IndexError
    | x :: t => if start <=? x then Ok i else find_regime start (S i) t
    end.

  (** generate_covariance_matrix (lines 397-425) up to the returned matrix; the first component is
      the intermediate `self._covariance_matrix` of line 423 when that line was reached. *)
  Definition generate_covariance_matrix (b : Boot) (p : GLSParams) (diff_regime : nat)
    : option (Mat A) * Res (Mat A) :=
    let n_o := skipn diff_regime (b_n_o b) in
    let dts := skipn diff_regime (b_dt b) in
    let vs := skipn diff_regime (b_v b) in
    let raw :=
      let! model_v := (if l_model p
                       then let! a := x_curve_fit X dts vs n_o in Ok (model_variance n_o dts a)
                       else Ok vs) in
      populate_covariance_matrix model_v n_o in
    match raw with
    | Raise e => (None, Raise e)
    | Ok m => (Some m, let! r := minimum_eigenvalue_method m (l_cond_max p) in x_cov_nearest X r)
    end.

  (** `1e-20` and `1e-3` *)
  Definition tiny : A := n1 / nofZ 100000000000000000000.
  Definition milli : A := n1 / nofZ 1000.

  (** Line 384: start positions of the walkers. *)
  Definition initial_positions (ml : list A) (noise : Mat A) : Mat A :=
    map (fun row => zip_with (fun m z => m + m * milli * z) ml row) noise.

  (** Lines 350-391: from the covariance matrix to the chain. *)
  Definition sample_gls (b : Boot) (p : GLSParams) (diff_regime : nat) (cov : Mat A) (g : G)
    : G * Res (Mat A) :=
    let dts := skipn diff_regime (b_dt b) in
    let ns := skipn diff_regime (b_n b) in
    let setup :=
      let! ld := x_logdet X cov in
      let logdet := ld + x_log2pi X * nofnat (length ns) in
      let! inv := x_pinvh X cov in
      let ll := log_likelihood dts ns logdet inv in
      let! slope := x_linregress X dts ns in
      let slope := if slope <? n0 then tiny else slope in
      let! ml := x_minimize X (fun th => let! l := ll th in Ok (option_map nopp l))
                            (if l_fit_intercept p then [slope; tiny] else [slope]) in
      Ok (ll, ml) in
    match setup with
    | Raise e => (g, Raise e)
    | Ok (ll, ml) =>
        let '(noise, g') := x_randn X g (Z.to_nat (l_n_walkers p)) (length ml) in
        (g', let! chain := run_mcmc ll (initial_positions ml noise) (length ml)
                                    (l_n_samples p + l_n_burn p)%Z g' in
             get_chain chain (l_n_burn p) (l_thin p))
    end.

  Definition column (j : Z) (m : Mat A) : Res (list A) := mapM (fun row => py_index row j) m.

  Definition bootstrap_GLS (b : Boot) (p : GLSParams) (g : G) : Boot * G * Res unit :=
    let g := match l_random_state p with
             | Some rs => x_seed X (x_seed_of X rs) | None => g end in        (* lines 339-340 *)
    let b := set_settings b p in                                             (* lines 342-344 *)
    match find_regime (l_start_dt p) 0 (b_dt b) with
    | Raise e => (b, g, Raise e)
    | Ok dr =>
        match generate_covariance_matrix b p dr with
        | (None, Raise e) => (b, g, Raise e)
        | (None, Ok _) => (b, g, Raise RuntimeError)  (* impossible *)
        | (Some raw, Raise e) => (set_covariance b raw, g, Raise e)
        | (Some _, Ok cov) =>
            let b := set_covariance b cov in                                 (* line 348 *)
            match sample_gls b p dr cov g with
            | (g', Raise e) => (b, g', Raise e)
            | (g', Ok chain) =>
                match column 0 chain, (if l_fit_intercept p
                                       then let! c := column 1 chain in Ok (Some c)
                                       else Ok None) with
                | Ok gr, Ok ic => (set_fit b chain gr ic, g', Ok tt)         (* lines 391-395 *)
                | Raise e, _ => (b, g', Raise e)
                | _, Raise e => (b, g', Raise e)
                end
            end
        end
    end.

  (** ** diffusion / jump_diffusion / conductivity (lines 427-482) *)
  Definition set_D (b : Boot) (d : list A) : Boot :=
    mkBoot (b_displacements b) (b_delta_t b) (b_max_obs b) (b_distributions b) (b_dt b) (b_n b)
      (b_s b) (b_v b) (b_n_bootstrap b) (b_s_bootstrap b) (b_v_bootstrap b) (b_n_o b) (b_ngp b)
      (b_sub_sample_dt b) (b_dimension b) (b_euclidian b) (Some d) (b_DJ b) (b_sigma b)
      (b_intercept b) (b_gradient b) (b_flatchain b) (b_covariance b) (b_slice b)
      (b_start_dt b) (b_dims b) (b_model b) (b_cond_max b).
  Definition set_DJ (b : Boot) (d : list A) : Boot :=
    mkBoot (b_displacements b) (b_delta_t b) (b_max_obs b) (b_distributions b) (b_dt b) (b_n b)
      (b_s b) (b_v b) (b_n_bootstrap b) (b_s_bootstrap b) (b_v_bootstrap b) (b_n_o b) (b_ngp b)
      (b_sub_sample_dt b) (b_dimension b) (b_euclidian b) (b_D b) (Some d) (b_sigma b)
      (b_intercept b) (b_gradient b) (b_flatchain b) (b_covariance b) (b_slice b)
      (b_start_dt b) (b_dims b) (b_model b) (b_cond_max b).
  Definition set_sigma (b : Boot) (d : list A) : Boot :=
    mkBoot (b_displacements b) (b_delta_t b) (b_max_obs b) (b_distributions b) (b_dt b) (b_n b)
      (b_s b) (b_v b) (b_n_bootstrap b) (b_s_bootstrap b) (b_v_bootstrap b) (b_n_o b) (b_ngp b)
      (b_sub_sample_dt b) (b_dimension b) (b_euclidian b) (b_D b) (b_DJ b) (Some d)
      (b_intercept b) (b_gradient b) (b_flatchain b) (b_covariance b) (b_slice b)
      (b_start_dt b) (b_dims b) (b_model b) (b_cond_max b).

  (** `self.gradient.samples` *)
  Definition samples_of (o : option (list A)) : Res (list A) := opt_res AttributeError o.

  (** Line 436 *)
  Definition diffusion_samples (dims : nat) (gr : list A) : list A :=
    map (fun x => x / (nofZ 20000 * nofnat dims)) gr.
  Definition diffusion (b : Boot) (p : GLSParams) (g : G) : Boot * G * Res unit :=
    match bootstrap_GLS b p g with
    | (b1, g1, Raise e) => (b1, g1, Raise e)
    | (b1, g1, Ok _) =>
        match samples_of (b_gradient b1) with
        | Raise e => (b1, g1, Raise e)
        | Ok gr => (set_D b1 (diffusion_samples (b_dims b1) gr), g1, Ok tt)
        end
    end.

  (** Lines 455-457 *)
  Definition jump_samples (dims natoms : nat) (gr : list A) : list A :=
    map (fun x => x / (nofZ 20000 * nofnat dims * nofnat natoms)) gr.
  Definition jump_diffusion (b : Boot) (p : GLSParams) (g : G) : Boot * G * Res unit :=
    match bootstrap_GLS b p g with
    | (b1, g1, Raise e) => (b1, g1, Raise e)
    | (b1, g1, Ok _) =>
        match samples_of (b_gradient b1), py_index (b_displacements b1) 0 with
        | Ok gr, Ok d0 =>
            (set_DJ b1 (jump_samples (b_dims b1) (length (a_rows d0)) gr), g1, Ok tt)
        | Raise e, _ => (b1, g1, Raise e)
        | _, Raise e => (b1, g1, Raise e)
        end
    end.

  (** Lines 478-482; [NAvo], [qe], [Rgas] are scipy.constants N_A, e and R. *)
  Record Consts := mkConsts { k_NA : A; k_e : A; k_R : A }.
  Definition conductivity_conversion (k : Consts) (temperature volume : A) : A :=
    let volume := volume * (n1 / nofZ 1000000000000000000000000) in
    nofZ 1000 / (volume * k_NA k) * nsq (k_NA k * k_e k) / (k_R k * temperature).
  Definition conductivity (k : Consts) (b : Boot) (p : GLSParams) (temperature volume : A) (g : G)
    : Boot * G * Res unit :=
    match bootstrap_GLS b p g with
    | (b1, g1, Raise e) => (b1, g1, Raise e)
    | (b1, g1, Ok _) =>
        match samples_of (b_gradient b1) with
        | Raise e => (b1, g1, Raise e)
        | Ok gr => (set_sigma b1 (map (fun d => d * conductivity_conversion k temperature volume)
                                      (diffusion_samples (b_dims b1) gr)), g1, Ok tt)
        end
    end.

  (** ** Reading the object *)

  (** The instance dictionary, restricted to the attributes holding one number per interval: every
      name assigned in the class (lines 61-72, 581-602) with its value. The array properties dt, n,
      s, v, ngp (lines 179-220) look their name up in it, and so does n_i (lines 222-227), whose
      `self._n_i` is assigned nowhere. *)
  Definition vector_attributes (b : Boot) : list (string * list A) :=
    [("_delta_t", b_delta_t b); ("_dt", b_dt b); ("_n", b_n b); ("_s", b_s b); ("_v", b_v b);
     ("_n_bootstrap", b_n_bootstrap b); ("_s_bootstrap", b_s_bootstrap b);
     ("_v_bootstrap", b_v_bootstrap b); ("_n_o", b_n_o b); ("_ngp", b_ngp b)].
  Definition getattr (name : string) (b : Boot) : Res (list A) :=
    match find (fun p => String.eqb (fst p) name) (vector_attributes b) with
    | Some (_, v) => Ok v
    | None => Raise AttributeError
    end.
  Definition dt_property (b : Boot) : Res (list A) := getattr "_dt" b.
  Definition n_i (b : Boot) : Res (list A) := getattr "_n_i" b.

  (** posterior_predictive (lines 492-521). The mean and the covariance matrix must have the same
      size. scipy squeezes the result of rvs: for a single fitted
      point it is one-dimensional and cannot be stored in the (n, 1) slot of line 520 unless n is
      one; [mvn] returns the unsqueezed rows. *)
  Fixpoint ppd_loop (grad : list A) (icpt : option (list A)) (cov : Mat A) (dts : list A)
      (n_pred : nat) (draws : list nat) (g : G) : Res (list (Mat A) * G) :=
    match draws with
    | [] => Ok ([], g)
    | n :: rest =>
        let! gn := py_index grad (Z.of_nat n) in
        let! ic := opt_res AttributeError icpt in
        let! cn := py_index ic (Z.of_nat n) in
        let mu := map (fun d => gn * d + cn) dts in
        let! _ := guard (Nat.eqb (length cov) (length mu)) ValueError in
        let '(rows, g') := x_mvn X g mu cov n_pred in
        let! _ := guard (negb (Nat.eqb (length dts) 1) || Nat.leb n_pred 1) ValueError in
        let! '(more, g'') := ppd_loop grad icpt cov dts n_pred rest g' in
        Ok (rows :: more, g'')
    end.
  Definition posterior_predictive (b : Boot) (n_posterior : option nat) (n_pred : nat) (g : G)
    : Res (Mat A * G) :=
    let! n_post := match n_posterior with
                   | Some k => Ok k
                   | None => let! gr := samples_of (b_gradient b) in Ok (length gr)
                   end in
    let! start := opt_res TypeError (b_start_dt b) in
    let! dr := find_regime start 0 (b_dt b) in
    let dts := skipn dr (b_dt b) in
    let! gr := samples_of (b_gradient b) in
    let! _ := guard (Nat.ltb 0 (length gr) || Nat.eqb n_post 0) ValueError in
    let '(draws, g') := x_randints X g (length gr) n_post in
    let! cov := opt_res ValueError (b_covariance b) in
    let! '(blocks, g'') := ppd_loop gr (b_intercept b) cov dts n_pred draws g' in
    Ok (concat blocks, g'').
End Diffusion.

Arguments Boot A : clear implicits.
Arguments BootParams A : clear implicits.
Arguments GLSParams A RS : clear implicits.
Arguments charge A : clear implicits.
Arguments Consts A : clear implicits.
