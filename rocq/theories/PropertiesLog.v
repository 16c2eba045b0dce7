(** * PropertiesLog: C49, C50 with logarithmic spacing

    [parser_init] runs in IEEE double precision; [geomspace] is any function as accurate as NumPy's
    (SpecLog). *)
From Verif Require Import Base ModelParser SpecDouble SpecLog SpecRun ProofsFloat ProofsLog.
From Coq Require Import Reals Lra.
From Coq.Floats Require Import SpecFloat.

(** ** C49 *)
(** With max_dt omitted: distinct, never beyond the trajectory, at most one frame short. *)
Theorem C49_logarithmic_partial : forall geomspace disp indices drift_indices (ts : spec_float) ss o p,
  accurate_geomspace geomspace ->
  is_double ts -> (0 < value ts)%R -> 0 < ss -> o_max_dt o = None ->
  (o_min_dt o = None \/ exists mn, o_min_dt o = Some mn /\ is_double mn /\ (0 <= value mn)%R) ->
  o_spacing o = "logarithmic"%string ->
  parser_init geomspace disp indices drift_indices ts ss o = Ok p ->
  let T := Z.of_nat (a_obs (p_dc p)) in T < 2 ^ 40 ->
  Forall (fun z => 1 <= z <= T) (p_intervals p) /\ strictly_increasing (p_intervals p)
  /\ (2 <= o_n_steps o -> T - 1 <= last (p_intervals p) 0 <= T).
Proof. exact C49_log_proof. Qed.
Print Assumptions C49_logarithmic_partial.
(** Equal to the trajectory length when the time step is a whole number or another binary fraction. *)
Theorem C49_logarithmic_binary_fractions : forall geomspace disp indices drift_indices (ts : spec_float) ss o p m e,
  accurate_geomspace geomspace ->
  is_double ts -> value ts = (IZR m * powerRZ 2 e)%R -> 0 < m -> -1074 <= e <= 900 -> 0 < ss -> o_max_dt o = None ->
  (o_min_dt o = None \/ exists mn, o_min_dt o = Some mn /\ is_double mn /\ (0 <= value mn)%R) ->
  o_spacing o = "logarithmic"%string ->
  parser_init geomspace disp indices drift_indices ts ss o = Ok p ->
  let T := Z.of_nat (a_obs (p_dc p)) in T < 2 ^ 40 -> m * ss * T < 2 ^ 53 ->
  2 <= o_n_steps o -> last (p_intervals p) 0 = T.
Proof. exact C49_log_exact_proof. Qed.
Print Assumptions C49_logarithmic_binary_fractions.
(** In general it is not: with time step 0.7 and three frames the longest interval is left out. *)
Theorem C49_logarithmic_refuted : forall geomspace, accurate_geomspace geomspace ->
  exists disp (ts : spec_float) o p, nearest_double ts (7 / 10)%R /\ o_max_dt o = None /\ o_min_dt o = None
  /\ o_spacing o = "logarithmic"%string /\ 2 <= o_n_steps o /\ parser_init geomspace disp [0] [] ts 1 o = Ok p
  /\ a_obs (p_dc p) = 3%nat /\ p_intervals p = [1; 2].
Proof. exact C49_log_refuted_proof. Qed.
Print Assumptions C49_logarithmic_refuted.

(** ** C50 *)
Theorem C50_logarithmic_partial : forall geomspace disp indices drift_indices (d : R) m (ts : spec_float) ss mn o p,
  accurate_geomspace geomspace ->
  (powerRZ 2 (-1022) <= d)%R -> (IZR (m * ss) * d <= powerRZ 2 1000)%R -> 1 <= m < 2 ^ 48 -> 0 < ss ->
  nearest_double ts d -> nearest_double mn (IZR (m * ss) * d) ->
  o_min_dt o = Some mn -> o_max_dt o = None -> o_spacing o = "logarithmic"%string -> 1 <= o_n_steps o ->
  parser_init geomspace disp indices drift_indices ts ss o = Ok p ->
  Z.of_nat (a_obs (p_dc p)) < 2 ^ 40 -> m * ss < 2 ^ 53 ->
  exists a, hd_error (p_intervals p) = Some a /\ m - 1 <= a <= m /\ 1 <= a.
Proof. exact C50_log_proof. Qed.
Print Assumptions C50_logarithmic_partial.
Theorem C50_logarithmic_exact : forall geomspace disp indices drift_indices (d : R) m (ts : spec_float) ss mn o p,
  accurate_geomspace geomspace ->
  (0 < d)%R -> 1 <= m < 2 ^ 48 -> 0 < ss < 2 ^ 53 ->
  is_double ts -> value ts = d -> finite_double mn -> value mn = (IZR (m * ss) * d)%R ->
  (exists w, finite_double w /\ value w = (IZR ss * d)%R) ->
  o_min_dt o = Some mn -> o_max_dt o = None -> o_spacing o = "logarithmic"%string -> 1 <= o_n_steps o ->
  parser_init geomspace disp indices drift_indices ts ss o = Ok p ->
  Z.of_nat (a_obs (p_dc p)) < 2 ^ 40 -> hd_error (p_intervals p) = Some m.
Proof. exact C50_log_exact_proof. Qed.
Print Assumptions C50_logarithmic_exact.

(** The assumption can be met, and a run with time step 3/2 and min_dt 3 meets the rest. *)
Example C49_logarithmic_contract : accurate_geomspace geomspace_R.
Proof. exact real_accurate. Qed.
Example C49_logarithmic_example : forall geomspace, accurate_geomspace geomspace -> exists p,
  parser_init geomspace (still 3) [0] [] (decimal 3 2) 1 (spaced (Some (decimal 6 2))) = Ok p /\ a_obs (p_dc p) = 3%nat /\ p_intervals p = [2; 3].
Proof. exact C49_log_example_proof. Qed.
