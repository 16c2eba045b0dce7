(** * PropertiesParser: C06, C08-C16 (the Parser constructor on given displacements)

    [table N T x] is the displacement array of [N] atoms and [T] entries with entry [x a t]; by
    the first theorem every rectangular array has this form. *)
From Verif Require Import Base Spec ModelParser SpecParser Lemmas ProofsDisp ProofsIntervals ProofsWindows ProofsParser SpecRun.
From Coq Require Import Reals Lra Lia Sorting.
Open Scope Z_scope.

Theorem every_rectangular_array_is_a_table : forall (a : Arr R) N,
  shape (a_rows a) N (a_obs a) -> exists x, a = table N (a_obs a) x.
Proof. exact rectangular_is_table. Qed.
Print Assumptions every_rectangular_array_is_a_table.

(** ** C06: multi-origin windows enumerate every origin exactly once *)
Theorem C06_multi_origin_windows :
  forall (ts : R) ss idx (mem : R) isz N T (x : nat -> nat -> V3 R) n,
  Forall (valid_site N) idx -> (0 < n <= T)%nat -> (1 < length idx * kept (T - n + 1) n)%nat ->
  (in_gigabytes (Z.of_nat (length idx) * Z.of_nat (T - n + 1) * 3 * isz) <= mem)%R ->
  exists arr, get_disps ts ss idx "multi-origin" mem isz [Z.of_nat n] (table N T x)
              = Ok ([INR n * ts * IZR ss]%R, [arr], [INR (length idx)])
    /\ is_multi_window N T (table N T x) idx n arr.
Proof. exact C06_proof. Qed.
Print Assumptions C06_multi_origin_windows.

Example C06_example :
  Forall (valid_site 3) [2;0] /\ (1 < length [2;0] * kept (5 - 2 + 1) 2)%nat
  /\ (in_gigabytes (Z.of_nat (length [2;0]) * Z.of_nat (5 - 2 + 1) * 3 * 8) <= 8)%R.
Proof. split; [repeat constructor; cbn; lia|]. split; [cbn; lia|]. unfold in_gigabytes; cbn; lra. Qed.

(** ** C08: single-origin observations

    False of the code: the observation reported for the interval of three frames is the
    displacement accumulated at entry 1 (the loop counter), not at entry 2. *)
Theorem C08_single_origin_interval_refuted : exists (x : nat -> nat -> V3 R) p arr,
  parser_init geomspace_R (table 2 3 x) [0;1] [] 1%R 1
     (mkOptions (Some 1) (Some 3) 2 "linear" "single-origin" 8 8)%R = Ok p
  /\ nth_error (p_intervals p) 1 = Some 3 /\ nth_error (p_disp_3d p) 1 = Some arr
  /\ arr_entry arr 0 0 = arr_entry (p_dc p) 0 1
  /\ arr_entry arr 0 0 <> arr_entry (p_dc p) 0 (3 - 1).
Proof. exact C08_refuted_proof. Qed.
Print Assumptions C08_single_origin_interval_refuted.

(** What is true: the k-th array always holds accumulated entry k. Hence the property holds for
    those intervals with n = k+1 (for instance all intervals when they are 1,2,3,...). Missing:
    all other intervals, where it is false. *)
Theorem C08_single_origin_interval_partial :
  forall N T (x : nat -> nat -> V3 R) idx drift (ts : R) ss o p,
  Forall (valid_site N) idx -> Forall (valid_site N) drift -> sensible T (IZR ss * ts) o ->
  o_sampling o = "single-origin"%string ->
  parser_init geomspace_R (table N T x) idx drift ts ss o = Ok p ->
  length (p_n_o p) = length (p_disp_3d p) /\ (length (p_disp_3d p) <= length (p_delta_t p))%nat
  /\ length (p_delta_t p) = length (p_intervals p)
  /\ forall k arr, nth_error (p_disp_3d p) k = Some arr ->
     exists n : nat, (0 < n <= T)%nat /\ nth_error (p_intervals p) k = Some (Z.of_nat n)
       /\ nth_error (p_delta_t p) k = Some (INR n * ts * IZR ss)%R
       /\ is_single_window N (p_dc p) idx k arr
       /\ nth_error (p_n_o p) k
          = Some (INR (length idx) * IZR (last (p_intervals p) 0%Z) / INR n)%R.
Proof. exact C09_single_proof. Qed.
Print Assumptions C08_single_origin_interval_partial.
Example C08_example : Forall (valid_site 2) [0;1] /\ sensible 4 (IZR 1 * 1) (demo_opts "single-origin").
Proof. split; [exact demo_valid|apply demo_sensible]. Qed.

(** ** C09: delta_t, displacement arrays and n_o stay aligned (options in the documented ranges) *)
Theorem C09_alignment :
  forall N T (x : nat -> nat -> V3 R) idx drift (ts : R) ss o p,
  Forall (valid_site N) idx -> Forall (valid_site N) drift -> sensible T (IZR ss * ts) o ->
  o_sampling o = "multi-origin"%string ->
  parser_init geomspace_R (table N T x) idx drift ts ss o = Ok p ->
  length (p_n_o p) = length (p_disp_3d p) /\ (length (p_disp_3d p) <= length (p_delta_t p))%nat
  /\ length (p_delta_t p) = length (p_intervals p)
  /\ forall k arr, nth_error (p_disp_3d p) k = Some arr ->
     exists n : nat, (0 < n <= T)%nat /\ nth_error (p_intervals p) k = Some (Z.of_nat n)
       /\ nth_error (p_delta_t p) k = Some (INR n * ts * IZR ss)%R
       /\ is_multi_window N T (p_dc p) idx n arr
       /\ nth_error (p_n_o p) k
          = Some (INR (length idx) * IZR (last (p_intervals p) 0%Z) / INR n)%R.
Proof. exact C09_multi_proof. Qed.
Print Assumptions C09_alignment.
Example C09_example : exists p,
  parser_init geomspace_R demo_disp [0;1] [] 1%R 1 (demo_opts "multi-origin") = Ok p
  /\ Forall (valid_site 2) [0;1] /\ sensible 4 (IZR 1 * 1) (demo_opts "multi-origin")
  /\ p_intervals p = [1;2;3;4] /\ length (p_disp_3d p) = 4%nat /\ p_n_o p = [8;4;8/3;2]%R.
Proof.
  rewrite demo_multi. eexists. split; [reflexivity|]. split; [exact demo_valid|].
  split; [apply demo_sensible|]. repeat split.
Qed.

(** Outside those ranges it is false: with max_dt below min_dt the intervals descend, the first
    one is dropped for having too few observations, and the array for the interval of one frame
    is reported next to delta_t = 3. *)
Theorem C09_descending_refuted : exists (x : nat -> nat -> V3 R) p arr,
  parser_init geomspace_R (table 1 4 x) [0] [] 1%R 1
     (mkOptions (Some 3) (Some 1) 100 "linear" "multi-origin" 8 8)%R = Ok p
  /\ nth_error (p_disp_3d p) 0 = Some arr /\ is_multi_window 1 4 (p_dc p) [0] 1 arr
  /\ nth_error (p_delta_t p) 0 = Some 3%R.
Proof. exact C09_descending_refuted_proof. Qed.
Print Assumptions C09_descending_refuted.

(** ** C10: linear intervals. [a] and [b] are the numbers of whole frames in min_dt and max_dt. *)
Theorem C10_linear_intervals : forall geo (mn mx ts : R) ss a b m, (0 < IZR ss * ts)%R ->
  let u := (IZR ss * ts)%R in
  0 <= a -> (IZR a * u <= mn < IZR (a + 1) * u)%R -> (IZR b * u <= mx < IZR (b + 1) * u)%R ->
  Z.max 1 a <= b -> 2 <= m ->
  exists l, get_time_intervals geo mn mx ss ts m "linear" = Ok l
    /\ Z.of_nat (length l) = m /\ StronglySorted Z.le l
    /\ nth_error l 0 = Some (Z.max 1 a) /\ nth_error l (length l - 1) = Some b
    /\ forall i j x x' y y', nth_error l i = Some x -> nth_error l (S i) = Some x' ->
         nth_error l j = Some y -> nth_error l (S j) = Some y' -> Z.abs ((x' - x) - (y' - y)) <= 1.
Proof. exact C10_proof. Qed.
Print Assumptions C10_linear_intervals.
Example C10_example : let u := (IZR 50 * (1/10))%R in
  (0 < u)%R /\ (IZR 2 * u <= 12 < IZR (2 + 1) * u)%R /\ (IZR 20 * u <= 100 < IZR (20 + 1) * u)%R /\ Z.max 1 2 <= 20.
Proof. cbv zeta. cbn. repeat split; try lra; lia. Qed.
(** With a single step only the minimum is returned. *)
Theorem C10_single_step : forall geo (mn mx ts : R) ss a, (0 < IZR ss * ts)%R ->
  let u := (IZR ss * ts)%R in 0 <= a -> (IZR a * u <= mn < IZR (a + 1) * u)%R ->
  get_time_intervals geo mn mx ss ts 1 "linear" = Ok [Z.max 1 a].
Proof. exact C10_one_proof. Qed.
Print Assumptions C10_single_step.

(** ** C11: no duplicated intervals with default min_dt and max_dt, for every n_steps *)
Theorem C11_default_intervals_distinct :
  forall geo N T (x : nat -> nat -> V3 R) idx drift (ts : R) ss o p,
  Forall (valid_site N) drift -> (0 < IZR ss * ts)%R ->
  o_min_dt o = None -> o_max_dt o = None -> o_spacing o = "linear"%string -> 0 <= o_n_steps o ->
  parser_init geo (table N T x) idx drift ts ss o = Ok p ->
  StronglySorted Z.lt (p_intervals p)
  /\ Z.of_nat (length (p_intervals p)) = Z.min (o_n_steps o) (Z.of_nat T)
  /\ Forall (fun z => 1 <= z <= Z.of_nat T) (p_intervals p).
Proof. exact C11_defaults_proof. Qed.
Print Assumptions C11_default_intervals_distinct.
Example C11_example : exists p,
  parser_init geomspace_R demo_disp [0;1] [] 1%R 1 (demo_opts "multi-origin") = Ok p
  /\ o_min_dt (demo_opts "multi-origin") = None /\ o_max_dt (demo_opts "multi-origin") = None
  /\ p_intervals p = [1;2;3;4].
Proof. rewrite demo_multi. eexists. repeat split. Qed.

(** User-chosen bounds: false. n_steps is capped by the trajectory length minus min_dt, not by
    max_dt minus min_dt; and by the unclamped min_dt. *)
Theorem C11_user_max_refuted : exists (x : nat -> nat -> V3 R) p,
  parser_init geomspace_R (table 2 4 x) [0;1] [] 1%R 1
     (mkOptions (Some 1) (Some 2) 100 "linear" "multi-origin" 8 8)%R = Ok p
  /\ p_intervals p = [1; 1; 1; 2].
Proof. exact C11_user_refuted_proof. Qed.
Print Assumptions C11_user_max_refuted.
Theorem C11_user_min_refuted : exists (x : nat -> nat -> V3 R) p,
  parser_init geomspace_R (table 2 3 x) [0;1] [] 1%R 1
     (mkOptions (Some 0) None 100 "linear" "multi-origin" 8 8)%R = Ok p
  /\ p_intervals p = [1; 1; 2; 3].
Proof. exact C11_user_min_refuted_proof. Qed.
Print Assumptions C11_user_min_refuted.
(** True when no more intervals are asked for than whole frames between the bounds. *)
Theorem C11_user_partial : forall geo (mn mx ts : R) ss a b m, (0 < IZR ss * ts)%R ->
  let u := (IZR ss * ts)%R in
  0 <= a -> (IZR a * u <= mn < IZR (a + 1) * u)%R -> 0 <= b -> (IZR b * u <= mx < IZR (b + 1) * u)%R ->
  0 <= m -> m - 1 <= b - Z.max 1 a ->
  exists l, get_time_intervals geo mn mx ss ts m "linear" = Ok l /\ StronglySorted Z.lt l.
Proof. exact C11_user_proof. Qed.
Print Assumptions C11_user_partial.

(** ** C12: logarithmic intervals *)
Theorem C12_logarithmic_intervals : forall (mn mx ts : R) ss a b m, (0 < IZR ss * ts)%R ->
  let u := (IZR ss * ts)%R in
  0 <= a -> (IZR a * u <= mn < IZR (a + 1) * u)%R -> (IZR b * u <= mx < IZR (b + 1) * u)%R ->
  Z.max 1 a <= b -> 0 <= m ->
  exists l, get_time_intervals geomspace_R mn mx ss ts m "logarithmic" = Ok l
    /\ Z.of_nat (length l) <= m /\ StronglySorted Z.lt l
    /\ Forall (fun z => Z.max 1 a <= z <= b) l
    /\ (1 <= m -> In (Z.max 1 a) l) /\ (2 <= m -> In b l).
Proof. exact C12_proof. Qed.
Print Assumptions C12_logarithmic_intervals.
Example C12_example : let u := (IZR 1 * 2)%R in
  (0 < u)%R /\ (IZR 0 * u <= 1 < IZR (0 + 1) * u)%R /\ (IZR 20 * u <= 41 < IZR (20 + 1) * u)%R /\ Z.max 1 0 <= 20.
Proof. cbv zeta. cbn. repeat split; try lra; lia. Qed.

(** ** C13: validation of the interval range *)
Theorem C13_min_dt_too_large_rejected :
  forall N T (x : nat -> nat -> V3 R) idx drift (ts : R) ss o,
  Forall (valid_site N) drift -> sensible T (IZR ss * ts) o ->
  (INR T * (IZR ss * ts) <= min_time (IZR ss * ts) o)%R ->
  parser_init geomspace_R (table N T x) idx drift ts ss o = Raise ValueError.
Proof. exact rejected. Qed.
Print Assumptions C13_min_dt_too_large_rejected.
Example C13_example_rejected :
  sensible 4 (IZR 1 * 1) (mkOptions (Some 4) (Some 4) 100 "linear" "multi-origin" 8 8)%R.
Proof. constructor; unfold min_time, max_time; cbn; try lra; try lia. now left. Qed.

(** Accepted inputs with max_dt within the trajectory run; the only possible failure is the
    memory limit. *)
Theorem C13_accepted_inputs_run_partial :
  forall N T (x : nat -> nat -> V3 R) idx drift (ts : R) ss o,
  Forall (valid_site N) idx -> Forall (valid_site N) drift -> sensible T (IZR ss * ts) o ->
  (min_time (IZR ss * ts) o < INR T * (IZR ss * ts))%R ->
  o_sampling o = "multi-origin"%string \/ o_sampling o = "single-origin"%string ->
  (exists p, parser_init geomspace_R (table N T x) idx drift ts ss o = Ok p)
  \/ parser_init geomspace_R (table N T x) idx drift ts ss o = Raise MemoryError.
Proof. exact runs. Qed.
Print Assumptions C13_accepted_inputs_run_partial.
Example C13_example_runs : sensible 4 (IZR 1 * 1) (demo_opts "multi-origin")
  /\ (min_time (IZR 1 * 1) (demo_opts "multi-origin") < INR 4 * (IZR 1 * 1))%R.
Proof. split; [apply demo_sensible|]. unfold min_time; cbn; lra. Qed.

(** A max_dt at least one frame beyond the trajectory is accepted and then read outside it. *)
Theorem C13_max_dt_beyond_refuted : exists (x : nat -> nat -> V3 R) (o : Options R),
  (min_time 1 o < INR 2 * 1)%R /\
  parser_init geomspace_R (table 2 2 x) [0;1] [] 1%R 1 o = Raise IndexError.
Proof. exact C13_refuted_proof. Qed.
Print Assumptions C13_max_dt_beyond_refuted.
Theorem C13_max_dt_beyond_always_fails :
  forall geo N T (x : nat -> nat -> V3 R) idx drift (ts : R) ss o,
  Forall (valid_site N) idx -> Forall (valid_site N) drift -> (0 < IZR ss * ts)%R ->
  let u := (IZR ss * ts)%R in
  (0 <= min_time u o < INR T * u)%R -> (INR T * u + u <= max_time T u o)%R ->
  o_spacing o = "linear"%string -> o_sampling o = "multi-origin"%string -> 2 <= o_n_steps o ->
  parser_init geo (table N T x) idx drift ts ss o = Raise IndexError
  \/ parser_init geo (table N T x) idx drift ts ss o = Raise MemoryError.
Proof. exact C13_beyond_proof. Qed.
Print Assumptions C13_max_dt_beyond_always_fails.

(** ** C14: the memory limit *)
Theorem C14_too_large_is_refused :
  forall (ts : R) ss idx sampling (mem : R) isz tis N T (x : nat -> nat -> V3 R),
  Forall (valid_site N) idx -> tis <> [] -> Forall (fun n => (0 < n <= T)%nat) tis ->
  (mem < in_gigabytes (total_bytes isz (map (multi_window N T x idx) tis)))%R ->
  get_disps ts ss idx sampling mem isz (map Z.of_nat tis) (table N T x) = Raise MemoryError.
Proof. exact C14_refuse_proof. Qed.
Print Assumptions C14_too_large_is_refused.
Example C14_example_refused :
  (in_gigabytes (total_bytes 8 (map (multi_window 2 4 (fun _ _ => zero3) [0;1]%Z) [1;2;3;4]%nat)) = 480 / 1000000000)%R.
Proof. unfold in_gigabytes. cbn. lra. Qed.
Theorem C14_success_is_within_the_limit :
  forall N T (x : nat -> nat -> V3 R) idx drift (ts : R) ss o p,
  Forall (valid_site N) idx -> Forall (valid_site N) drift -> sensible T (IZR ss * ts) o ->
  o_sampling o = "multi-origin"%string \/ o_sampling o = "single-origin"%string -> 0 <= o_itemsize o ->
  parser_init geomspace_R (table N T x) idx drift ts ss o = Ok p ->
  (in_gigabytes (total_bytes (o_itemsize o) (p_disp_3d p)) <= o_memory_limit o)%R.
Proof. exact C14_within_proof. Qed.
Print Assumptions C14_success_is_within_the_limit.
(** Exactness: with nothing dropped, an array list is built for every limit at or above its own
    size (so, with the first theorem, the limit is compared with the true size). *)
Theorem C14_estimate_is_exact :
  forall (ts : R) ss idx (mem : R) isz tis N T (x : nat -> nat -> V3 R),
  Forall (valid_site N) idx -> tis <> [] -> Forall (fun n => (0 < n <= T)%nat) tis ->
  Forall (fun n => (1 < length idx * kept (T - n + 1) n)%nat) tis ->
  (in_gigabytes (total_bytes isz (map (multi_window N T x idx) tis)) <= mem)%R ->
  exists d arrs no, get_disps ts ss idx "multi-origin" mem isz (map Z.of_nat tis) (table N T x) = Ok (d, arrs, no)
    /\ total_bytes isz arrs = total_bytes isz (map (multi_window N T x idx) tis).
Proof. exact C14_exact_proof. Qed.
Print Assumptions C14_estimate_is_exact.
Example C14_example_exact : Forall (fun n => (1 < length [0;1] * kept (4 - n + 1) n)%nat) [1;2;3;4]%nat.
Proof. repeat constructor. Qed.

(** ** C15: number of independent observations *)
Theorem C15_independent_observations :
  forall N T (x : nat -> nat -> V3 R) idx drift (ts : R) ss o p,
  Forall (valid_site N) idx -> Forall (valid_site N) drift -> sensible T (IZR ss * ts) o ->
  o_sampling o = "multi-origin"%string -> idx <> [] ->
  parser_init geomspace_R (table N T x) idx drift ts ss o = Ok p ->
  forall k c, nth_error (p_n_o p) k = Some c ->
  exists n big : nat, nth_error (p_intervals p) k = Some (Z.of_nat n)
    /\ In (Z.of_nat big) (p_intervals p) /\ (forall z, In z (p_intervals p) -> z <= Z.of_nat big)
    /\ c = (INR (length idx) * INR big / INR n)%R
    /\ (0 < c)%R /\ (INR (length idx) <= c)%R /\ (n = big -> c = INR (length idx))
    /\ forall k' c', (k < k')%nat -> nth_error (p_n_o p) k' = Some c' -> (c' <= c)%R.
Proof. exact C15_proof. Qed.
Print Assumptions C15_independent_observations.
Example C15_example : exists p,
  parser_init geomspace_R demo_disp [0;1] [] 1%R 1 (demo_opts "multi-origin") = Ok p
  /\ nth_error (p_n_o p) 2 = Some (8/3)%R.
Proof. rewrite demo_multi. eexists. repeat split. Qed.

(** ** C16: unknown spacing and sampling (dimension and dtype: PropertiesAnalyzer.v) *)
Theorem C16_unknown_spacing_rejected :
  forall geo N T (x : nat -> nat -> V3 R) idx drift (ts : R) ss o,
  Forall (valid_site N) drift -> (IZR ss * ts <> 0)%R ->
  o_spacing o <> "linear"%string -> o_spacing o <> "logarithmic"%string ->
  parser_init geo (table N T x) idx drift ts ss o = Raise ValueError.
Proof. exact C16_spacing_proof. Qed.
Print Assumptions C16_unknown_spacing_rejected.
Theorem C16_unknown_sampling_rejected :
  forall N T (x : nat -> nat -> V3 R) idx drift (ts : R) ss o,
  Forall (valid_site N) idx -> Forall (valid_site N) drift -> sensible T (IZR ss * ts) o -> 1 <= o_n_steps o ->
  o_sampling o <> "single-origin"%string -> o_sampling o <> "multi-origin"%string ->
  parser_init geomspace_R (table N T x) idx drift ts ss o = Raise ValueError
  \/ parser_init geomspace_R (table N T x) idx drift ts ss o = Raise MemoryError.
Proof. exact C16_sampling_proof. Qed.
Print Assumptions C16_unknown_sampling_rejected.
Example C16_example : sensible 4 (IZR 1 * 1) (demo_opts "all-origins")
  /\ parser_init geomspace_R demo_disp [0;1] [] 1%R 1 (mkOptions None None 100 "cubic" "multi-origin" 8%R 8) = Raise ValueError.
Proof.
  split; [apply demo_sensible|]. apply C16_unknown_spacing_rejected; try constructor; try discriminate. lra.
Qed.
