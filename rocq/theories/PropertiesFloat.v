(** * PropertiesFloat: C49, C50

    [parser_init] runs in IEEE double precision here. [geomspace] is arbitrary because only linear
    spacing is considered. *)
From Verif Require Import Base ModelParser SpecDouble ProofsFloat SpecRun.
From Coq Require Import Reals Lra.
From Coq.Floats Require Import SpecFloat.

(** ** C49 *)
(** With max_dt omitted: never beyond the trajectory, at most one frame short. *)
Theorem C49_partial : forall geomspace disp indices drift_indices (ts : spec_float) ss o p,
  is_double ts -> (0 < value ts)%R -> 0 < ss -> o_max_dt o = None ->
  (o_min_dt o = None \/ exists mn, o_min_dt o = Some mn /\ is_double mn /\ (0 <= value mn)%R) ->
  o_spacing o = "linear"%string ->
  parser_init geomspace disp indices drift_indices ts ss o = Ok p ->
  let T := Z.of_nat (a_obs (p_dc p)) in T < 2 ^ 49 ->
  Forall (fun z => 1 <= z <= T) (p_intervals p) /\ nondecreasing (p_intervals p)
  /\ (2 <= Z.of_nat (length (p_intervals p)) -> T - 1 <= last (p_intervals p) 0 <= T).
Proof. exact C49_proof. Qed.
Print Assumptions C49_partial.
(** Equal to the trajectory length when the time step is a whole number or another binary fraction. *)
Theorem C49_binary_fractions : forall geomspace disp indices drift_indices (ts : spec_float) ss o p m e,
  is_double ts -> value ts = (IZR m * powerRZ 2 e)%R -> 0 < m -> -1074 <= e <= 900 -> 0 < ss -> o_max_dt o = None ->
  (o_min_dt o = None \/ exists mn, o_min_dt o = Some mn /\ is_double mn /\ (0 <= value mn)%R) ->
  o_spacing o = "linear"%string ->
  parser_init geomspace disp indices drift_indices ts ss o = Ok p ->
  let T := Z.of_nat (a_obs (p_dc p)) in T < 2 ^ 49 -> m * ss * T < 2 ^ 53 ->
  2 <= Z.of_nat (length (p_intervals p)) -> last (p_intervals p) 0 = T.
Proof. exact C49_exact_proof. Qed.
Print Assumptions C49_binary_fractions.
(** In general it is not, and then an interval is analysed twice. *)
Theorem C49_refuted : forall geomspace, exists disp (ts : spec_float) o p, nearest_double ts (7 / 10)%R /\ o_max_dt o = None /\ o_min_dt o = None
  /\ o_spacing o = "linear"%string /\ parser_init geomspace disp [0] [] ts 1 o = Ok p
  /\ a_obs (p_dc p) = 3%nat /\ p_intervals p = [1; 1; 2].
Proof. exact C49_refuted_proof. Qed.
Print Assumptions C49_refuted.
(** The time step and step_skip of docs/source/ase_COG.ipynb, with eleven frames. *)
Theorem C49_documentation_refuted : forall geomspace, exists disp (ts : spec_float) o p, nearest_double ts (12 / 10000)%R /\ o_max_dt o = None /\ o_min_dt o = None
  /\ o_spacing o = "linear"%string /\ parser_init geomspace disp [0] [] ts 100 o = Ok p
  /\ a_obs (p_dc p) = 11%nat /\ p_intervals p = [1; 1; 2; 3; 4; 5; 6; 7; 8; 9; 10].
Proof. exact C49_refuted2_proof. Qed.
Print Assumptions C49_documentation_refuted.
(** The intervals are distinct exactly when there is room for them, rounding notwithstanding. *)
Theorem C49_distinct : forall geomspace disp indices drift_indices (ts : spec_float) ss o p a b,
  is_double ts -> (0 < value ts)%R -> 0 < ss -> o_max_dt o = None ->
  (o_min_dt o = None \/ exists mn, o_min_dt o = Some mn /\ is_double mn /\ (0 <= value mn)%R) ->
  o_spacing o = "linear"%string ->
  parser_init geomspace disp indices drift_indices ts ss o = Ok p ->
  let T := Z.of_nat (a_obs (p_dc p)) in T < 2 ^ 24 ->
  hd_error (p_intervals p) = Some a -> last (p_intervals p) 0 = b ->
  strictly_increasing (p_intervals p) <-> Z.of_nat (length (p_intervals p)) <= b - a + 1.
Proof. exact C49_distinct_proof. Qed.
Print Assumptions C49_distinct.

(** ** C50

    [d] is the time step the user wrote, [m * ss * d] the min_dt the user wrote. *)
Theorem C50_partial : forall geomspace disp indices drift_indices (d : R) m (ts : spec_float) ss mn o p,
  (powerRZ 2 (-1022) <= d)%R -> (IZR (m * ss) * d <= powerRZ 2 1000)%R -> 1 <= m < 2 ^ 48 -> 0 < ss ->
  nearest_double ts d -> nearest_double mn (IZR (m * ss) * d) ->
  o_min_dt o = Some mn -> o_max_dt o = None -> o_spacing o = "linear"%string -> 1 <= o_n_steps o ->
  parser_init geomspace disp indices drift_indices ts ss o = Ok p ->
  Z.of_nat (a_obs (p_dc p)) < 2 ^ 49 -> m * ss < 2 ^ 53 ->
  exists a, hd_error (p_intervals p) = Some a /\ m - 1 <= a <= m /\ 1 <= a.
Proof. exact C50_proof. Qed.
Print Assumptions C50_partial.
Theorem C50_exact : forall geomspace disp indices drift_indices (d : R) m (ts : spec_float) ss mn o p,
  (0 < d)%R -> 1 <= m < 2 ^ 48 -> 0 < ss < 2 ^ 53 ->
  is_double ts -> value ts = d -> finite_double mn -> value mn = (IZR (m * ss) * d)%R ->
  (exists w, finite_double w /\ value w = (IZR ss * d)%R) ->
  o_min_dt o = Some mn -> o_max_dt o = None -> o_spacing o = "linear"%string -> 1 <= o_n_steps o ->
  parser_init geomspace disp indices drift_indices ts ss o = Ok p ->
  Z.of_nat (a_obs (p_dc p)) < 2 ^ 49 -> hd_error (p_intervals p) = Some m.
Proof. exact C50_exact_proof. Qed.
Print Assumptions C50_exact.
(** 0.3 / 0.1 is below 3: asking for three frames gives two. *)
Theorem C50_refuted : forall geomspace, exists disp (ts mn : spec_float) o p,
  nearest_double ts (1 / 10)%R /\ nearest_double mn (3 / 10)%R /\ o_max_dt o = None /\ o_min_dt o = Some mn
  /\ o_spacing o = "linear"%string /\ parser_init geomspace disp [0] [] ts 1 o = Ok p
  /\ a_obs (p_dc p) = 5%nat /\ p_intervals p = [2; 3; 4; 5].
Proof. exact C50_refuted_proof. Qed.
Print Assumptions C50_refuted.

(** A run with time step 3/2 and min_dt 3 that meets the hypotheses above. *)
Example C49_example : forall geomspace, exists p, parser_init geomspace (still 6) [0] [] (decimal 3 2) 1 (plain (Some (decimal 6 2))) = Ok p
  /\ a_obs (p_dc p) = 6%nat /\ p_intervals p = [2; 3; 4; 5; 6].
Proof. exact float_example. Qed.
Example C49_example_values : is_double (decimal 3 2) /\ value (decimal 3 2) = (IZR 6755399441055744 * powerRZ 2 (-52))%R
  /\ (0 < value (decimal 3 2))%R /\ finite_double (decimal 6 2)
  /\ nearest_double (decimal 3 2) (3 / 2)%R /\ nearest_double (decimal 6 2) (6 / 2)%R.
Proof.
  assert (0 < powerRZ 2 (-52))%R by (apply powerRZ_lt; lra).
  split; [vm_compute; reflexivity|]. split; [vm_compute; reflexivity|]. split; [|split; [split; vm_compute; [reflexivity|exact I]|]].
  - change (0 < IZR 6755399441055744 * powerRZ 2 (-52))%R. apply Rmult_lt_0_compat; [lra|assumption].
  - split; [apply (nearest_ratio 3 2)|apply (nearest_ratio 6 2)]; lia.
Qed.
