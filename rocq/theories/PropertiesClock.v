(** * PropertiesClock: C103 and C104

    Times and coefficients run in IEEE double precision here. [clock c l] are the exact times [m c] of the intervals [m] in [l]. *)
From Verif Require Import Base ModelParser ModelDiffusion SpecFit SpecDouble SpecRound SpecClock ProofsFloat ProofsClock ProofsCoeff.
From Coq Require Import Reals.
From Coq.Floats Require Import SpecFloat.
Open Scope Z_scope.

(** ** C103
    Every time in delta_t is interval times time_step times step_skip, to 2 (pymatgen: 4) times 2^-52. *)
Theorem C103_times : forall geo disp idx didx ts ss o p, usual ts -> 1 <= ss < 2 ^ 48 -> parser_init geo disp idx didx ts ss o = Ok p -> counted (p_intervals p) ->
  all_accurate 2 (p_delta_t p) (clock (IZR ss * value ts) (p_intervals p)).
Proof. exact C103_init_proof. Qed.
Print Assumptions C103_times.
Theorem C103_ase : forall geo circ frames (a : Params spec_float) ts p, a_time_step a = PyFloat ts -> usual ts -> 1 <= a_step_skip a < 2 ^ 48 ->
  ase_parser geo circ frames a = Ok p -> counted (p_intervals p) -> all_accurate 2 (p_delta_t p) (clock (IZR (a_step_skip a) * value ts) (p_intervals p)).
Proof. exact C103_ase_proof. Qed.
Print Assumptions C103_ase.
Theorem C103_mdanalysis : forall geo circ frames (a : Params spec_float) ts p, a_time_step a = PyFloat ts -> usual ts -> 1 <= a_step_skip a * a_sub_sample_traj a < 2 ^ 48 ->
  mda_parser geo circ frames a = Ok p -> counted (p_intervals p) -> all_accurate 2 (p_delta_t p) (clock (IZR (a_step_skip a * a_sub_sample_traj a) * value ts) (p_intervals p)).
Proof. exact C103_mda_proof. Qed.
Print Assumptions C103_mdanalysis.
Theorem C103_pymatgen : forall geo circ frames (a : Params spec_float) ts p, a_time_step a = PyFloat ts -> usual ts -> 1 <= a_step_skip a * a_sub_sample_traj a < 2 ^ 48 ->
  pymatgen_parser geo circ frames a = Ok p -> counted (p_intervals p) ->
  all_accurate 4 (p_delta_t p) (clock (IZR (a_step_skip a * a_sub_sample_traj a) * value ts / 1000) (p_intervals p)).
Proof. exact C103_pymatgen_proof. Qed.
Print Assumptions C103_pymatgen.
(** In terms of the time step [d] as it was written: one more 2^-52. *)
Theorem C103_as_written : forall k l K ts d ms, (0 <= k <= 6)%R -> nearest_double ts d -> (powerRZ 2 (-1022) <= d <= powerRZ 2 1000)%R -> (0 < K)%R -> counted ms ->
  all_accurate k l (clock (K * value ts) ms) -> all_accurate (k + 1) l (clock (K * d) ms).
Proof. exact C103_written_proof. Qed.
Print Assumptions C103_as_written.
(** Increasing intervals have increasing times. *)
Theorem C103_order : forall k l c ms, (0 <= k <= 6)%R -> (0 < c)%R -> counted ms -> all_accurate k l (clock c ms) -> strictly_increasing ms -> doubles_increase l.
Proof. exact C103_order_proof. Qed.
Print Assumptions C103_order.
(** The fit starts at the first interval whose time is at least start_dt, if start_dt, as written, keeps 2^-49 (relatively) away
    from the exact times of that interval and of the one before. *)
Theorem C103_start : forall k l c ms start tau r m, (0 <= k <= 6)%R -> (0 < c)%R -> counted ms -> strictly_increasing ms -> all_accurate k l (clock c ms) ->
  nearest_double start tau -> (powerRZ 2 (-1022) <= tau <= powerRZ 2 1000)%R ->
  nth_error ms r = Some m -> (tau <= IZR m * c * (1 - / 2 ^ 49))%R ->
  (forall n, nth_error ms (Nat.pred r) = Some n -> (0 < r)%nat -> (IZR n * c * (1 + / 2 ^ 49) <= tau)%R) ->
  find_regime start 0 l = Ok r.
Proof. exact C103_start_proof. Qed.
Print Assumptions C103_start.
Theorem C103_too_late : forall k l c ms start tau, (0 <= k <= 6)%R -> (0 < c)%R -> counted ms -> all_accurate k l (clock c ms) ->
  nearest_double start tau -> (powerRZ 2 (-1022) <= tau <= powerRZ 2 1000)%R ->
  (forall n, In n ms -> (IZR n * c * (1 + / 2 ^ 49) <= tau)%R) -> find_regime start 0 l = Raise IndexError.
Proof. exact C103_late_proof. Qed.
Print Assumptions C103_too_late.
(** Without the distance: time_step 0.7 and start_dt 2.1 leave out the interval of three steps, since 3*0.7 is
    2.0999999999999996 in double precision. *)
Theorem C103_start_refuted : forall geomspace, exists disp ts start o p, nearest_double ts (7 / 10)%R /\ nearest_double start (21 / 10)%R /\ o_max_dt o = None /\ o_min_dt o = None
  /\ o_spacing o = "linear"%string /\ parser_init geomspace disp [0] [] ts 1 o = Ok p /\ p_intervals p = [1; 2; 3; 4; 5] /\ find_regime start 0 (p_delta_t p) = Ok 3%nat.
Proof. exact C103_refuted_proof. Qed.
Print Assumptions C103_start_refuted.
(** Time step 0.7, start_dt 2.0. *)
Example C103_example : forall geomspace, usual (decimal 7 10) /\ nearest_double (decimal 7 10) (7 / 10)%R /\ nearest_double (decimal 20 10) (20 / 10)%R
  /\ exists p, parser_init geomspace (still 5) [0] [] (decimal 7 10) 1 (plain None) = Ok p /\ p_intervals p = [1; 2; 3; 4; 5] /\ strictly_increasing (p_intervals p) /\ counted (p_intervals p)
       /\ find_regime (decimal 20 10) 0 (p_delta_t p) = Ok 2%nat.
Proof. exact C103_example_proof. Qed.

(** ** C104
    D and D_J are correctly rounded: the doubles nearest to the Einstein relation, in cm^2/s, applied to each gradient. *)
Theorem C104_D : forall G Seed RS (X : Ext spec_float G Seed RS) b p g b' g' gr, (1 <= b_dims b <= 3)%nat -> diffusion X b p g = (b', g', Ok tt) ->
  b_gradient b' = Some gr -> Forall bounded_sample gr ->
  exists ds, b_D b' = Some ds /\ Forall2 (fun s d => nearest_double d (in_cm2_per_s (einstein (b_dims b) (value s)))) gr ds.
Proof. exact @C104_D_proof. Qed.
Print Assumptions C104_D.
Theorem C104_D_J : forall G Seed RS (X : Ext spec_float G Seed RS) b p g b' g' gr d0, (1 <= b_dims b <= 3)%nat -> nth_error (b_displacements b) 0 = Some d0 ->
  (1 <= length (a_rows d0))%nat -> Z.of_nat (length (a_rows d0)) < 2 ^ 37 -> jump_diffusion X b p g = (b', g', Ok tt) -> b_gradient b' = Some gr -> Forall bounded_sample gr ->
  exists ds, b_DJ b' = Some ds /\ Forall2 (fun s d => nearest_double d (in_cm2_per_s (einstein (b_dims b) (value s)) / INR (length (a_rows d0)))%R) gr ds.
Proof. exact @C104_DJ_proof. Qed.
Print Assumptions C104_D_J.
(** sigma is the Nernst-Einstein conductivity, in mS/cm, of each gradient to 20 times 2^-52; no step overflows or underflows. *)
Theorem C104_sigma : forall G Seed RS (X : Ext spec_float G Seed RS) k b p t vol g b' g' gr, (1 <= b_dims b <= 3)%nat ->
  everyday (k_NA k) -> everyday (k_e k) -> everyday (k_R k) -> everyday t -> everyday vol -> conductivity X k b p t vol g = (b', g', Ok tt) ->
  b_gradient b' = Some gr -> Forall everyday gr ->
  exists ss, b_sigma b' = Some ss
    /\ Forall2 (fun s d => accurate 20 d (in_milli (nernst_einstein (value (k_NA k)) (value (k_e k)) (value (k_R k)) (in_cm3 (value vol)) (value t) (in_cm2_per_s (einstein (b_dims b) (value s)))))) gr ss.
Proof. exact @C104_sigma_proof. Qed.
Print Assumptions C104_sigma.
(** The model writes the literal 1e-24 as 1/10^24, which may differ from the double nearest to 10^-24 in the last place; the bound
    holds for the latter as well. *)
Theorem C104_conversion_of_model : forall k t vol, conductivity_conversion k t vol = conversion_with (SFdiv fprec femax (SFofZ 1) (SFofZ (10 ^ 24))) k t vol.
Proof. exact model_conversion. Qed.
Theorem C104_literal : forall c k t vol s n, nearest_double c (/ IZR (10 ^ 24)) -> everyday (k_NA k) -> everyday (k_e k) -> everyday (k_R k) -> everyday t -> everyday vol -> everyday s -> (1 <= n <= 3)%nat ->
  accurate 20 (SFmul fprec femax (SFdiv fprec femax s (SFmul fprec femax (SFofZ 20000) (SFofZ (Z.of_nat n)))) (conversion_with c k t vol))
    (in_milli (nernst_einstein (value (k_NA k)) (value (k_e k)) (value (k_R k)) (in_cm3 (value vol)) (value t) (in_cm2_per_s (einstein n (value s))))).
Proof. exact C104_literal_proof. Qed.
Print Assumptions C104_literal.
(** Gradient 6, three dimensions, two atoms; the constants of scipy, 300 K, 1000 cubic angstrom. *)
Example C104_example : forall g, exists bd bj bs,
  diffusion (float_ext (SFofZ 6)) float_data float_fit g = (bd, 8%nat, Ok tt) /\ b_gradient bd = Some (repeat (SFofZ 6) 4) /\ b_D bd = Some (repeat (decimal 1 10000) 4)
  /\ jump_diffusion (float_ext (SFofZ 6)) float_data float_fit g = (bj, 8%nat, Ok tt) /\ b_DJ bj = Some (repeat (decimal 1 20000) 4)
  /\ conductivity (float_ext (SFofZ 6)) float_consts float_data float_fit (SFofZ 300) (SFofZ 1000) g = (bs, 8%nat, Ok tt) /\ b_gradient bs = Some (repeat (SFofZ 6) 4).
Proof. exact C104_example_proof. Qed.
Example C104_values : everyday (k_NA float_consts) /\ everyday (k_e float_consts) /\ everyday (k_R float_consts) /\ everyday (SFofZ 300) /\ everyday (SFofZ 1000) /\ everyday (SFofZ 6) /\ bounded_sample (SFofZ 6).
Proof. exact C104_values_proof. Qed.
