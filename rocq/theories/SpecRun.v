(** * SpecRun: vocabulary of the statements about analysers and fits *)
From Verif Require Import Base Spec SpecParser SpecStats ModelParser ModelDiffusion ModelHdf ModelAnalyzer.
From Coq Require Import Reals.
Open Scope Z_scope.

Section Run.
  Context {G Seed RS : Type} (X : Ext R G Seed RS).
  Definition pystr_text (d : pystr) : string := match d with PyStr s => s | PyBytes s => s end.
  Definition charges (q : charge R) (n : nat) : list R := match q with QScalar c => repeat c n | QArray l => l end.
  Definition scale_charge (c : R) (q : charge R) : charge R :=
    match q with QScalar x => QScalar (c * x)%R | QArray l => QArray (map (Rmult c) l) end.
  Definition with_dimension (u : BootParams R) (s : string) : BootParams R :=
    mkBootParams (u_sub_sample_dt u) (u_bootstrap u) (u_block u) (u_n_resamples u) (u_max_resamples u) (PyStr s) (u_alpha u).
  (** The claim of C27 about n_o: entry k belongs to the interval of dt k. *)
  Definition n_o_claim (dts n_o : list R) (b : Boot R) : Prop :=
    forall i j t, nth_error (b_dt b) i = Some t -> nth_error dts j = Some t -> nth_error (b_n_o b) i = nth_error n_o j.
  (** The claim of C28 for one run. *)
  Definition variance_claim (k : nat) (dim : string) (disps : list (Arr R)) (n_o : list R) (b : Boot R) : Prop :=
    forall axes i d no v, names dim axes -> nth_error disps (i * k) = Some d -> nth_error n_o (i * k) = Some no ->
      nth_error (b_v b) i = Some v -> v = (sample_variance (map (sqlen axes) (entries d)) / no)%R.
  Definition parser_of := (Z -> Z -> Z -> Res (list Z)) -> (option (list R) -> list R -> Res R) -> list (Frame R) -> Params R -> Res (Parsed R).
  Definition parsers : list parser_of := [ase_parser; pymatgen_parser; mda_parser].
  Definition analysed_by (d : AnalyzerData R) (q : charge R) (u : BootParams R) (g : G) (an : Analyzer R) (g' : G) : Prop :=
    diffusion_analyzer X d u g = Ok (an, g') \/ jump_diffusion_analyzer X d u g = Ok (an, g')
    \/ conductivity_analyzer X d q u g = Ok (an, g').
  (** The regime used by a fit, its data and what the fit does with it. *)
  Definition fit_data (b : Boot R) (r : nat) := (skipn r (b_dt b), skipn r (b_n b), skipn r (b_v b), skipn r (b_n_o b)).
  (** Everything that is stored about the displacements. *)
  Definition same_statistics (b b' : Boot R) : Prop :=
    b_displacements b' = b_displacements b /\ b_delta_t b' = b_delta_t b /\ b_max_obs b' = b_max_obs b
    /\ b_distributions b' = b_distributions b /\ b_dt b' = b_dt b /\ b_n b' = b_n b /\ b_s b' = b_s b
    /\ b_v b' = b_v b /\ b_n_bootstrap b' = b_n_bootstrap b /\ b_s_bootstrap b' = b_s_bootstrap b
    /\ b_v_bootstrap b' = b_v_bootstrap b /\ b_n_o b' = b_n_o b /\ b_ngp b' = b_ngp b
    /\ b_sub_sample_dt b' = b_sub_sample_dt b /\ b_dimension b' = b_dimension b
    /\ b_euclidian b' = b_euclidian b /\ b_slice b' = b_slice b /\ b_dims b' = b_dims b.
  Definition same_coefficients (b b' : Boot R) : Prop :=
    b_D b' = b_D b /\ b_DJ b' = b_DJ b /\ b_sigma b' = b_sigma b.
  Definition same_fit (b b' : Boot R) : Prop :=
    b_intercept b' = b_intercept b /\ b_gradient b' = b_gradient b /\ b_flatchain b' = b_flatchain b.
  Definition not_fitted (b : Boot R) : Prop :=
    b_D b = None /\ b_DJ b = None /\ b_sigma b = None /\ b_intercept b = None /\ b_gradient b = None
    /\ b_flatchain b = None /\ b_covariance b = None.
  (** A call of one of the three methods, with its arguments. *)
  Inductive call :=
  | CallDiffusion (p : GLSParams R RS)
  | CallJump (p : GLSParams R RS)
  | CallConductivity (k : Consts R) (p : GLSParams R RS) (temperature volume : R).
  Definition run_call (b : Boot R) (g : G) (c : call) : Boot R * G * Res unit :=
    match c with
    | CallDiffusion p => diffusion X b p g
    | CallJump p => jump_diffusion X b p g
    | CallConductivity k p t vol => conductivity X k b p t vol g
    end.
  (** Calls one after the other, whether they raise or not; the generator may be used by other code
      in between, so its state before each call is arbitrary. *)
  Inductive history (b : Boot R) : list (call * Res unit) -> Boot R -> Prop :=
  | h_nil : history b [] b
  | h_snoc h c g b1 g2 b2 o : history b h b1 -> run_call b1 g c = (b2, g2, o) -> history b (h ++ [(c, o)]) b2.
  (** What a call may replace: its own coefficient, and only when it succeeds. *)
  Definition coefficient (c : call) (b : Boot R) : option (list R) :=
    match c with CallDiffusion _ => b_D b | CallJump _ => b_DJ b | CallConductivity _ _ _ _ => b_sigma b end.
  Definition same_kind (c d : call) : Prop :=
    match c, d with
    | CallDiffusion _, CallDiffusion _ | CallJump _, CallJump _ => True
    | CallConductivity _ _ _ _, CallConductivity _ _ _ _ => True
    | _, _ => False
    end.
  (** An object made by one of the three constructors. *)
  Definition made (u : BootParams R) (b : Boot R) : Prop := exists dts disps n_o g g',
    msd_bootstrap X u dts disps n_o g = Ok (b, g') \/ mstd_bootstrap X u dts disps n_o g = Ok (b, g')
    \/ exists q, mscd_bootstrap X u dts disps q n_o g = Ok (b, g').
  (** ... and then used in any way. *)
  Definition reachable (u : BootParams R) (b : Boot R) : Prop := exists b0 h, made u b0 /\ history b0 h b.
  (** Two random states whose second state word is the same are interchangeable. *)
  Definition with_state (p : GLSParams R RS) (rs : option RS) : GLSParams R RS :=
    mkGLSParams (l_start_dt p) (l_cond_max p) (l_model p) (l_fit_intercept p) (l_n_samples p) (l_n_walkers p)
                (l_n_burn p) (l_thin p) rs.
  (** A position whose gradient is not negative. *)
  Definition gradient_ok (th : list R) : Prop := exists x rest, th = x :: rest /\ (0 <= x)%R.
  (** What the fit needs from the optimiser and the random numbers: the optimum is not negative, and
      no random number is below -1000 standard deviations. *)
  Definition starts_positive : Prop :=
    (forall f x0 ml, x_minimize X f x0 = Ok ml -> gradient_ok ml)
    /\ forall g r c, Forall (fun row => length row = c /\ Forall (fun z => -1000 <= z)%R row) (fst (x_randn X g r c)).
  (** Bounds on every entry. *)
  Definition all_between (lo hi : R) (l : list R) : Prop := Forall (fun x => lo <= x <= hi)%R l.
  (** The oracle draws as many indices as asked for. *)
  Definition draws_enough : Prop := forall g n size, length (fst (x_randints X g n size)) = size.
  (** [values] was extended, 100 at a time, to [v], each time because the list so far was not normal
      and still too short. *)
  Definition extended (alpha : R) (mr : Z) (start : nat) (v : list R) : Prop :=
    exists k, length v = (start + 100 * k)%nat
      /\ (forall i, (i < k)%nat -> (x_normaltest X (firstn (start + 100 * i) v) < alpha)%R /\ Z.of_nat (start + 100 * i) < mr)
      /\ ((alpha <= x_normaltest X v)%R \/ mr <= Z.of_nat (length v)).
  (** What is assumed about the random number routines: shapes and ranges. *)
  Definition mvn_shape : Prop := forall g mu cov n, length (fst (x_mvn X g mu cov n)) = n
    /\ Forall (fun row => length row = length mu) (fst (x_mvn X g mu cov n)).
  Definition randints_ok : Prop := forall g n size, length (fst (x_randints X g n size)) = size
    /\ ((0 < n)%nat -> Forall (fun i => i < n)%nat (fst (x_randints X g n size))).
  (** The rows come in blocks; each block is drawn around the line of one posterior sample. *)
  Definition drawn_block (gr ic dts : list R) (cov : list (list R)) (n_pred : nat) (rows : list (list R)) : Prop :=
    exists j gj cj g, nth_error gr j = Some gj /\ nth_error ic j = Some cj
      /\ rows = fst (x_mvn X g (map (fun d => gj * d + cj)%R dts) cov n_pred).
  (** Shapes of the matrix routines. *)
  Definition matrix_shapes : Prop :=
    (forall m l v, x_eig X m = Ok (l, v) -> length v = length m)
    /\ (forall m m', x_cov_nearest X m = Ok m' -> length m' = length m).
  (** `np.random.randn(r, c)` has r rows. *)
  Definition noise_rows : Prop := forall g r c, length (fst (x_randn X g r c)) = r.
  Definition settings (c : call) : GLSParams R RS :=
    match c with CallDiffusion p => p | CallJump p => p | CallConductivity _ p _ _ => p end.
  (** The same fit with other chain lengths. *)
  Definition with_lengths (p : GLSParams R RS) (n_samples n_burn thin : Z) : GLSParams R RS :=
    mkGLSParams (l_start_dt p) (l_cond_max p) (l_model p) (l_fit_intercept p) n_samples (l_n_walkers p)
                n_burn thin (l_random_state p).
End Run.
